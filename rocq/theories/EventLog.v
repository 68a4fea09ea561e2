(** Reading a log of extension calls (OnInsert, OnSample, OnUpdate, OnDelete,
    OnReset), independently of the table.  These functions are the
    specification side of the theorems about tables. *)
From Verif Require Import Base Selector Trajectory Table.

(** The items a listener believes are in the table. *)
Definition replay_ev (m : gmap Z item) (e : event) : gmap Z item :=
  match e with
  | EvInsert it | EvSample it | EvUpdate it => <[it_key it := it]> m
  | EvDelete it => delete (it_key it) m
  | EvReset => ∅
  end.
Definition replay (log : list event) : gmap Z item := fold_left replay_ev log ∅.

(** How many inserts, samples, deletes happened since the last reset. *)
Definition n_ins_ev (n : Z) (e : event) : Z :=
  match e with EvInsert _ => n + 1 | EvReset => 0 | _ => n end.
Definition n_ins (log : list event) : Z := fold_left n_ins_ev log 0.
Definition n_samp_ev (n : Z) (e : event) : Z :=
  match e with EvSample _ => n + 1 | EvReset => 0 | _ => n end.
Definition n_samp (log : list event) : Z := fold_left n_samp_ev log 0.
Definition n_del_ev (n : Z) (e : event) : Z :=
  match e with EvDelete _ => n + 1 | EvReset => 0 | _ => n end.
Definition n_del (log : list event) : Z := fold_left n_del_ev log 0.

(** How often key [k] was sampled since it was last inserted. *)
Definition times_ev (k : Z) (n : Z) (e : event) : Z :=
  match e with
  | EvInsert it => if decide (it_key it = k) then 0 else n
  | EvSample it => if decide (it_key it = k) then n + 1 else n
  | _ => n
  end.
Definition times_since_insert (k : Z) (log : list event) : Z := fold_left (times_ev k) log 0.

(** The number of insertions since the last reset whose item was sampled at
    least once.  The set holds the keys sampled since their last insertion. *)
Definition uniq_ev (s : gset Z * Z) (e : event) : gset Z * Z :=
  match e with
  | EvInsert it => (s.1 ∖ {[it_key it]}, s.2)
  | EvSample it => if decide (it_key it ∈ s.1) then s else ({[it_key it]} ∪ s.1, s.2 + 1)
  | EvReset => (∅, 0)
  | _ => s
  end.
Definition uniq (log : list event) : gset Z * Z := fold_left uniq_ev log (∅, 0).

(** The episodes the items of a table refer to. *)
Definition item_eps (it : item) : gset Z := list_to_set (ck_ep <$> it_chunks it).
Definition eps_of (m : gmap Z item) : gset Z := ⋃ (item_eps <$> (map_to_list m).*2).

(** How many times, since the last reset, an episode lost its last item. *)
Definition lost_ev (s : gmap Z item * Z) (e : event) : gmap Z item * Z :=
  let m := replay_ev s.1 e in
  (m, match e with
      | EvReset => 0
      | _ => s.2 + Z.of_nat (size (eps_of s.1 ∖ eps_of m))
      end).
Definition lost_episodes (log : list event) : Z := (fold_left lost_ev log (∅, 0)).2.

(** The position of the last insertion of key [k] (0 if there is none). *)
Definition ins_pos_ev (k : Z) (s : nat * nat) (e : event) : nat * nat :=
  (S s.1, match e with
          | EvInsert it => if decide (it_key it = k) then S s.1 else s.2
          | _ => s.2
          end).
Definition ins_pos (k : Z) (log : list event) : nat := (fold_left (ins_pos_ev k) log (0, 0)%nat).2.

(** The position of the last event that set the priority of [k]. *)
Definition touch_pos_ev (k : Z) (s : nat * nat) (e : event) : nat * nat :=
  (S s.1, match e with
          | EvInsert it | EvUpdate it => if decide (it_key it = k) then S s.1 else s.2
          | _ => s.2
          end).
Definition touch_pos (k : Z) (log : list event) : nat :=
  (fold_left (touch_pos_ev k) log (0, 0)%nat).2.

(** The samples in order: what was logged before each of them, and the item. *)
Fixpoint sample_points_from (pre log : list event) : list (list event * item) :=
  match log with
  | [] => []
  | EvSample it :: log => (pre, it) :: sample_points_from (pre ++ [EvSample it]) log
  | e :: log => sample_points_from (pre ++ [e]) log
  end.
Definition sample_points : list event -> list (list event * item) := sample_points_from [].

(** Samples since the last reset that say "first time sampled". *)
Definition first_ev (n : Z) (e : event) : Z :=
  match e with EvSample it => if it_times it =? 1 then n + 1 else n | EvReset => 0 | _ => n end.
Definition n_first (log : list event) : Z := fold_left first_ev log 0.

(** Every sample that reaches the count [m] is followed at once by the removal
    of its item. *)
Definition removed_at (m : Z) (log : list event) : Prop :=
  forall pre it post, log = pre ++ EvSample it :: post -> it_times it = m ->
    exists post', post = EvDelete it :: post'.

(** Feeding the log to a selector. *)
Definition sel_ev {fp : FP} (s : selector) (e : event) : selector :=
  match e with
  | EvInsert it => (sel_insert s (it_key it) (it_prio it)).2
  | EvUpdate it => (sel_update s (it_key it) (it_prio it)).2
  | EvDelete it => (sel_delete s (it_key it)).2
  | EvSample _ => s
  | EvReset => sel_clear s
  end.
Definition sel_replay {fp : FP} (k : sel_kind) (log : list event) : selector :=
  fold_left sel_ev log (sel_new k).

(** * One event more *)

Lemma replay_snoc log e : replay (log ++ [e]) = replay_ev (replay log) e.
Proof. unfold replay. by rewrite fold_left_app. Qed.
Lemma n_ins_snoc log e : n_ins (log ++ [e]) = n_ins_ev (n_ins log) e.
Proof. unfold n_ins. by rewrite fold_left_app. Qed.
Lemma n_samp_snoc log e : n_samp (log ++ [e]) = n_samp_ev (n_samp log) e.
Proof. unfold n_samp. by rewrite fold_left_app. Qed.
Lemma n_del_snoc log e : n_del (log ++ [e]) = n_del_ev (n_del log) e.
Proof. unfold n_del. by rewrite fold_left_app. Qed.
Lemma times_snoc k log e : times_since_insert k (log ++ [e]) = times_ev k (times_since_insert k log) e.
Proof. unfold times_since_insert. by rewrite fold_left_app. Qed.
Lemma uniq_snoc log e : uniq (log ++ [e]) = uniq_ev (uniq log) e.
Proof. unfold uniq. by rewrite fold_left_app. Qed.
Lemma sel_replay_snoc {fp : FP} k log e : sel_replay k (log ++ [e]) = sel_ev (sel_replay k log) e.
Proof. unfold sel_replay. by rewrite fold_left_app. Qed.
Lemma n_first_snoc log e : n_first (log ++ [e]) = first_ev (n_first log) e.
Proof. unfold n_first. by rewrite fold_left_app. Qed.
Lemma sample_points_from_snoc log : forall pre e,
  sample_points_from pre (log ++ [e]) =
  sample_points_from pre log ++ match e with EvSample it => [(pre ++ log, it)] | _ => [] end.
Proof.
  induction log as [|x log IH]; intros pre e.
  - destruct e; simpl; by rewrite ?app_nil_r.
  - destruct x; simpl; rewrite IH, <- app_assoc; done.
Qed.
Lemma sample_points_snoc log e :
  sample_points (log ++ [e]) =
  sample_points log ++ match e with EvSample it => [(log, it)] | _ => [] end.
Proof. apply sample_points_from_snoc. Qed.
Lemma sample_points_elem log pre it :
  (pre, it) ∈ sample_points log <-> exists post, log = pre ++ EvSample it :: post.
Proof.
  induction log as [|e log IH] using rev_ind.
  - split; [intros H; inversion H|]. intros [post H]. by destruct pre.
  - rewrite sample_points_snoc, elem_of_app, IH. split.
    + intros [[post ->]|H].
      * exists (post ++ [e]). by rewrite <- app_assoc.
      * destruct e; try by inversion H. apply elem_of_list_singleton in H as [= -> ->].
        by exists [].
    + intros [post E]. destruct post as [|y post _] using rev_ind.
      * apply app_inj_tail in E as [-> ->]. right. left.
      * rewrite app_comm_cons, app_assoc in E. apply app_inj_tail in E as [-> _]. left. eauto.
Qed.
Lemma removed_at_nil m : removed_at m [].
Proof. intros pre it post H. by destruct pre. Qed.
Lemma removed_at_snoc m log e : removed_at m log ->
  match e with EvSample it => it_times it <> m | _ => True end -> removed_at m (log ++ [e]).
Proof.
  intros H He pre it post E Hm. destruct post as [|y post _] using rev_ind.
  - apply app_inj_tail in E as [-> ->]. done.
  - rewrite app_comm_cons, app_assoc in E. apply app_inj_tail in E as [-> <-].
    destruct (H pre it post eq_refl Hm) as [post' ->]. by exists (post' ++ [e]).
Qed.
Lemma removed_at_snoc2 m log it : removed_at m log ->
  removed_at m ((log ++ [EvSample it]) ++ [EvDelete it]).
Proof.
  intros H pre x post E Hm. destruct post as [|y post _] using rev_ind.
  - by apply app_inj_tail in E as [_ ?].
  - rewrite app_comm_cons, app_assoc in E. apply app_inj_tail in E as [E <-].
    destruct post as [|z post _] using rev_ind.
    + apply app_inj_tail in E as [<- [= <-]]. by exists [].
    + rewrite app_comm_cons, app_assoc in E. apply app_inj_tail in E as [-> <-].
      destruct (H pre x post eq_refl Hm) as [post' ->].
      exists (post' ++ [EvSample it] ++ [EvDelete it]). simpl. by rewrite <- app_assoc.
Qed.
Lemma lost_replay log : (fold_left lost_ev log (∅, 0)).1 = replay log.
Proof.
  induction log as [|e log IH] using rev_ind; [done|]. rewrite replay_snoc, fold_left_app. cbn.
  by rewrite IH.
Qed.
Lemma lost_snoc log e : lost_episodes (log ++ [e]) =
  match e with
  | EvReset => 0
  | _ => lost_episodes log + Z.of_nat (size (eps_of (replay log) ∖ eps_of (replay_ev (replay log) e)))
  end.
Proof.
  unfold lost_episodes. rewrite fold_left_app. cbn. by rewrite lost_replay.
Qed.
Lemma ins_pos_len k log : (fold_left (ins_pos_ev k) log (0, 0)%nat).1 = length log.
Proof.
  induction log as [|e log IH] using rev_ind; [done|]. rewrite fold_left_app, app_length. cbn.
  rewrite IH. lia.
Qed.
Lemma ins_pos_snoc k log e : ins_pos k (log ++ [e]) =
  match e with
  | EvInsert it => if decide (it_key it = k) then S (length log) else ins_pos k log
  | _ => ins_pos k log
  end.
Proof. unfold ins_pos. rewrite fold_left_app. cbn. rewrite ins_pos_len. done. Qed.
Lemma ins_pos_le k log : (ins_pos k log <= length log)%nat.
Proof.
  induction log as [|e log IH] using rev_ind; [done|]. rewrite ins_pos_snoc, app_length. simpl.
  destruct e; try lia. case_decide; lia.
Qed.
Lemma touch_pos_len k log : (fold_left (touch_pos_ev k) log (0, 0)%nat).1 = length log.
Proof.
  induction log as [|e log IH] using rev_ind; [done|]. rewrite fold_left_app, app_length. cbn.
  rewrite IH. lia.
Qed.
Lemma touch_pos_snoc k log e : touch_pos k (log ++ [e]) =
  match e with
  | EvInsert it | EvUpdate it => if decide (it_key it = k) then S (length log) else touch_pos k log
  | _ => touch_pos k log
  end.
Proof. unfold touch_pos. rewrite fold_left_app. cbn. rewrite touch_pos_len. done. Qed.
Lemma touch_pos_le k log : (touch_pos k log <= length log)%nat.
Proof.
  induction log as [|e log IH] using rev_ind; [done|]. rewrite touch_pos_snoc, app_length. simpl.
  destruct e; try lia; case_decide; lia.
Qed.

(** A property of every event given what came before it. *)
Definition log_all (P : list event -> event -> Prop) (log : list event) : Prop :=
  forall pre e post, log = pre ++ e :: post -> P pre e.

Lemma log_all_nil P : log_all P [].
Proof. intros pre e post H. by destruct pre. Qed.
Lemma log_all_snoc P log e : log_all P log -> P log e -> log_all P (log ++ [e]).
Proof.
  intros H He pre x post E. destruct post as [|y post _] using rev_ind.
  - by apply app_inj_tail in E as [-> ->].
  - rewrite app_comm_cons, app_assoc in E. apply app_inj_tail in E as [E _]. by eapply H.
Qed.
Lemma log_all_last P log e : log_all P (log ++ [e]) -> log_all P log /\ P log e.
Proof.
  intros H. split; [|by eapply H]. intros pre x post ->. eapply H. by rewrite <- app_assoc.
Qed.
Lemma log_all_impl (P Q : list event -> event -> Prop) log :
  (forall pre e, P pre e -> Q pre e) -> log_all P log -> log_all Q log.
Proof. intros HPQ H pre e post E. apply HPQ. by eapply H. Qed.
Lemma log_all_pre P l1 l2 : log_all P (l1 ++ l2) -> log_all P l1.
Proof. intros H pre x post ->. eapply H. by rewrite <- app_assoc. Qed.
