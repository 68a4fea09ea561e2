(** C46: the event history of the rate limiter. *)
From Verif Require Import Base EventHistory.

(** ** Specification: a list of events, the [n]-th to begin is number [n] *)

Record sevent := mkSEvent { se_start : Z; se_blocked : option Z (** [None]: still active *) }.

Definition sp_step (l : list sevent) (o : evop) : list sevent :=
  match o with
  | EvBegin now => l ++ [mkSEvent now None]
  | EvEnd id b now => alter (fun e => mkSEvent (se_start e) (Some (if b then now - se_start e else 0))) id l
  end.
Definition sp_run (os : list evop) : list sevent := foldl sp_step [] os.

Definition active (l : list sevent) (id : nat) : Prop := exists t, l !! id = Some (mkSEvent t None).

(** Only active events end.  An event does not begin while one is active that
    began [n] or more events ago (the comment in rate_limiter.cc:254-258). *)
Definition legal_step (n : nat) (l : list sevent) (o : evop) : Prop :=
  match o with
  | EvBegin _ => forall id, active l id -> (length l < id + n)%nat
  | EvEnd id _ _ => active l id
  end.
Definition legal (n : nat) (os : list evop) : Prop :=
  forall os1 o os2, os = os1 ++ o :: os2 -> legal_step n (sp_run os1) o.

Fixpoint legal_from (n : nat) (l : list sevent) (os : list evop) : Prop :=
  match os with [] => True | o :: os => legal_step n l o /\ legal_from n (sp_step l o) os end.
Lemma legal_intro n os : legal_from n [] os -> legal n os.
Proof.
  intros H os1 o os2 ->. revert H. unfold sp_run. generalize ([] : list sevent).
  induction os1 as [|o1 os1 IH]; intros l H; cbn in *; [apply H|]. exact (IH _ (proj2 H)).
Qed.

(** The events from number [lo] up to the first that is still active. *)
Fixpoint finished (id : nat) (l : list sevent) : list event :=
  match l with
  | mkSEvent t (Some b) :: l => mkEvent id t b :: finished (S id) l
  | _ => []
  end.
Definition history (l : list sevent) (lo : nat) : list event :=
  drop lo (finished 0 l).

(** ** The ring buffer *)

Definition ev_of (id : nat) (e : sevent) : event := mkEvent id (se_start e) (default 0 (se_blocked e)).

Record ring (n : nat) (s : stats) (l : list sevent) : Prop := {
  r_cap : s_cap s = n;
  r_next : s_next s = length l;
  r_active : forall id, id ∈ s_active s <-> active l id;
  r_nodup : NoDup (s_active s);
  r_old : forall id, active l id -> (length l <= id + n)%nat;
  r_at : forall id e, l !! id = Some e -> (length l <= id + n)%nat -> s_events s !! (id mod n)%nat = Some (ev_of id e) }.

Lemma ring_new n : ring n (stats_new n) [].
Proof.
  split; try done.
  - unfold s_cap. cbn. apply repeat_length.
  - intros id. split; [intros H%elem_of_nil; done|by intros (t & H)].
  - apply NoDup_nil_2.
  - by intros id (t & H).
Qed.

Lemma mod_window (n i j : nat) : (i < j)%nat -> (j < i + n)%nat -> (i mod n <> j mod n)%nat.
Proof.
  intros H1 H2 E. assert (Hn : n <> 0%nat) by lia.
  pose proof (Nat.div_mod i n Hn) as Hi. pose proof (Nat.div_mod j n Hn) as Hj.
  assert (i / n <= j / n)%nat by (apply Nat.div_le_mono; [done|lia]). rewrite E in Hi.
  destruct (decide (i / n = j / n)%nat) as [Eq|Hne]; [rewrite Eq in Hi; lia|].
  assert (n * S (i / n) <= n * (j / n))%nat by (apply Nat.mul_le_mono_l; lia). lia.
Qed.

Lemma active_app l t id : active (l ++ [mkSEvent t None]) id <-> active l id \/ id = length l.
Proof.
  unfold active. split.
  - intros (t' & H). apply lookup_app_Some in H as [H|[H1 H2]]; [eauto|].
    apply list_lookup_singleton_Some in H2 as [H2 _]. right. lia.
  - intros [(t' & H)| ->]; [exists t'; by apply lookup_app_l_Some|]. exists t. rewrite lookup_app_r, Nat.sub_diag by lia. done.
Qed.

Lemma ring_step n s l o : (0 < n)%nat -> ring n s l -> legal_step n l o -> ring n (ev_step s o) (sp_step l o).
Proof.
  intros Hn [R1 R2 R3 R4 R5 R6] L. destruct o as [now|id b now]; cbn [ev_step sp_step] in *.
  - unfold create_event. cbn [snd]. split; cbn [s_next s_active s_events].
    + unfold s_cap in *. cbn. by rewrite insert_length.
    + rewrite app_length. cbn. lia.
    + intros id. rewrite elem_of_cons, active_app, R3, R2. naive_solver.
    + apply NoDup_cons. split; [|done]. rewrite R3, R2. intros (t & H). apply lookup_lt_Some in H. lia.
    + intros id. rewrite active_app, app_length. cbn. intros [H| ->]; [apply L in H; lia|lia].
    + intros id e H. rewrite app_length, R1, R2. cbn. intros Hid. apply lookup_app_Some in H as [H|[H1 H2]].
      * pose proof (lookup_lt_Some _ _ _ H). rewrite list_lookup_insert_ne; [apply R6; [done|lia]|].
        intros E. symmetry in E. apply mod_window in E; lia.
      * apply list_lookup_singleton_Some in H2 as [H2 <-]. replace id with (length l) by lia.
        unfold s_cap in R1. apply list_lookup_insert. rewrite R1. apply Nat.mod_upper_bound. lia.
  - destruct L as (t & Ht). pose proof (R5 id (ex_intro _ t Ht)) as Ho. pose proof (R6 id _ Ht Ho) as He.
    unfold end_event. rewrite R1, He.
    set (e := if b then _ else _). assert (Ee : e = mkEvent id t (if b then now - t else 0)) by (unfold e; by destruct b).
    clearbody e. subst e. unfold complete_event. cbn [s_events s_next s_active e_id e_start e_blocked].
    assert (Ha : forall id', active (alter (fun e => mkSEvent (se_start e) (Some (if b then now - se_start e else 0))) id l) id' <-> active l id' /\ id' <> id).
    { intros id'. unfold active. destruct (decide (id = id')) as [<-|Hne].
      - rewrite list_lookup_alter, Ht. cbn. split; [by intros (? & ?)|by intros [_ ?]].
      - rewrite list_lookup_alter_ne by done. naive_solver. }
    split; cbn [s_next s_active s_events].
    + unfold s_cap in *. cbn. by rewrite insert_length.
    + by rewrite alter_length.
    + intros id'. rewrite elem_of_list_filter, Ha, R3. tauto.
    + by apply NoDup_filter.
    + intros id'. rewrite Ha, alter_length. intros [H _]. by apply R5.
    + intros id' e. rewrite alter_length. destruct (decide (id = id')) as [<-|Hne].
      * rewrite list_lookup_alter, Ht. cbn. intros [= <-] _. unfold s_cap in R1. rewrite list_lookup_insert; [done|].
        rewrite R1. apply Nat.mod_upper_bound. lia.
      * rewrite list_lookup_alter_ne by done. intros H Hid. rewrite list_lookup_insert_ne; [by apply R6|].
        pose proof (lookup_lt_Some _ _ _ Ht). pose proof (lookup_lt_Some _ _ _ H). intros E.
        destruct (decide (id < id')%nat); [apply mod_window in E; lia|symmetry in E; apply mod_window in E; lia].
Qed.

Lemma ring_run n os : (0 < n)%nat -> legal n os -> ring n (ev_run n os) (sp_run os).
Proof.
  intros Hn. unfold ev_run, sp_run. induction os as [|o os IH] using rev_ind; intros L; [apply ring_new|].
  rewrite !foldl_app. cbn [foldl]. apply ring_step; [done| |by apply (L os o [])].
  apply IH. intros os1 o1 os2 ->. apply (L os1 o1 (os2 ++ [o])). by rewrite <- app_assoc.
Qed.

(** First event that is active, or the number of events. *)
Lemma min_active (l : list nat) i : let m := foldr Nat.min i l in m ∈ i :: l /\ forall j, j ∈ i :: l -> (m <= j)%nat.
Proof.
  induction l as [|x l [IH1 IH2]]; cbn in *.
  - split; [apply elem_of_list_here|]. by intros j [->|H%elem_of_nil]%elem_of_cons.
  - split.
    + destruct (Nat.min_spec x (foldr Nat.min i l)) as [[_ ->]|[_ ->]]; [set_solver|].
      apply elem_of_cons in IH1 as [IH1|IH1]; [rewrite IH1 at 1; set_solver|set_solver].
    + intros j Hj. assert (j = x \/ j ∈ i :: l) as [->|H] by set_solver; [lia|]. specialize (IH2 _ H). lia.
Qed.

Lemma finished_spec l : forall k, let m := length (finished k l) in
  (forall i, (i < m)%nat -> exists e, l !! i = Some e /\ se_blocked e <> None /\ finished k l !! i = Some (ev_of (k + i) e)) /\
  (m = length l \/ active l m).
Proof.
  induction l as [|[t [b|]] l IH]; intros k; cbn [finished length].
  - split; [lia|by left].
  - destruct (IH (S k)) as [I1 I2]. split.
    + intros [|i] Hi; cbn.
      * exists (mkSEvent t (Some b)). split; [done|]. split; [done|]. by rewrite Nat.add_0_r.
      * replace (k + S i)%nat with (S k + i)%nat by lia. apply I1. lia.
    + destruct I2 as [I2|(t' & I2)]; [left; cbn in *; lia|right; by exists t'].
  - split; [cbn; lia|]. right. by exists t.
Qed.

(** ** C46 *)

(** The history is what it should be without its last event, from the first
    event still in the buffer.  Missing from the full statement: that last event. *)
Theorem C46_history_partial n os min_id : (0 < n)%nat -> legal n os -> (min_id <= length (sp_run os))%nat ->
  let lo := Nat.max min_id (length (sp_run os) - n) in
  get_event_history (ev_run n os) min_id = Some (removelast (history (sp_run os) lo)).
Proof.
  intros Hn L Hm lo. destruct (ring_run n os Hn L) as [R1 R2 R3 R4 R5 R6]. revert R1 R2 R3 R4 R5 R6.
  generalize (ev_run n os). intros s R1 R2 R3 R4 R5 R6. set (l := sp_run os) in *. clearbody l.
  unfold get_event_history. rewrite R2, R1. destruct (Nat.ltb_spec (length l) min_id); [lia|].
  assert (Elo : (if (n <=? length l - min_id)%nat then (length l - n)%nat else min_id) = lo).
  { unfold lo. destruct (Nat.leb_spec n (length l - min_id)); lia. }
  rewrite Elo. destruct (finished_spec l 0) as [F1 F2]. set (m := length (finished 0 l)) in *.
  assert (Em : (match s_active s with [] => length l | i :: l0 => foldr Nat.min i l0 end) = m).
  { destruct (s_active s) as [|i la] eqn:Ea.
    - destruct F2 as [F2|F2]; [done|]. apply R3 in F2. by apply elem_of_nil in F2.
    - destruct (min_active la i) as [M1 M2]. set (f := foldr Nat.min i la) in *.
      apply R3 in M1 as (t & M1). pose proof (lookup_lt_Some _ _ _ M1).
      assert (m <= f)%nat.
      { destruct (decide (f < m)%nat) as [Hf|]; [|lia]. destruct (F1 f Hf) as (e & He & Hb & _). rewrite M1 in He. injection He as <-. done. }
      destruct F2 as [F2|F2]; [lia|]. apply R3, M2 in F2. lia. }
  rewrite Em. assert (Hl : length (history l lo) = (m - lo)%nat) by (unfold history; rewrite drop_length; done).
  destruct (Nat.ltb_spec m (lo + 1)).
  - f_equal. symmetry. destruct (history l lo) as [|x [|y h]]; [done|done|cbn in Hl; lia].
  - f_equal. apply list_eq. intros i. 
    assert (Hr : removelast (history l lo) !! i = if decide (i < m - lo - 1)%nat then history l lo !! i else None).
    { revert Hl. generalize (history l lo) (m - lo)%nat. clear. intros h. revert i. induction h as [|x h IH]; intros i k Hk; [cbn; by case_decide|].
      destruct h as [|y h].
      - cbn in *. case_decide; [lia|done].
      - change (removelast (x :: y :: h)) with (x :: removelast (y :: h)). cbn [length] in Hk.
        destruct i as [|i]; [rewrite decide_True by lia; done|]. change ((x :: removelast (y :: h)) !! S i) with (removelast (y :: h) !! i). rewrite (IH i (k - 1)%nat) by (cbn; lia).
        change ((x :: y :: h) !! S i) with ((y :: h) !! i).
        do 2 case_decide; try lia; done. }
    rewrite Hr, list_lookup_fmap. case_decide as Hi.
    + rewrite lookup_seq_lt by lia. cbn. unfold history. rewrite lookup_drop.
      destruct (F1 (lo + i)%nat ltac:(lia)) as (e & He & _ & ->). f_equal. rewrite (R6 _ _ He) by (unfold lo in *; lia). done.
    + rewrite lookup_seq_ge by lia. done.
Qed.

(** Nothing is lost: every event of the full history is reported as soon as one
    more event has finished after it. *)
Theorem C46_reported_later n os min_id : (0 < n)%nat -> legal n os -> (min_id <= length (sp_run os))%nat ->
  forall id e, history (sp_run os) min_id !! id = Some e -> (length (sp_run os) <= min_id + id + n)%nat ->
  is_Some (history (sp_run os) min_id !! S id) ->
  exists h, get_event_history (ev_run n os) min_id = Some h /\ e ∈ h.
Proof.
  intros Hn L Hm id e He Ho [e' He']. eexists. split; [by apply C46_history_partial|].
  set (l := sp_run os) in *. unfold history in *. rewrite lookup_drop in He, He'.
  set (lo := Nat.max min_id (length l - n)) in *.
  assert (E1 : drop lo (finished 0 l) !! (min_id + id - lo)%nat = Some e).
  { rewrite lookup_drop. rewrite <- He. f_equal. lia. }
  assert (E2 : drop lo (finished 0 l) !! S (min_id + id - lo)%nat = Some e').
  { rewrite lookup_drop. rewrite <- He'. f_equal. lia. }
  revert E1 E2. generalize (drop lo (finished 0 l)) (min_id + id - lo)%nat. clear. intros h. induction h as [|x h IH]; intros i E1 E2; [done|].
  destruct h as [|y h]; [by destruct i|]. change (removelast (x :: y :: h)) with (x :: removelast (y :: h)).
  destruct i as [|i]; [injection E1 as ->; apply elem_of_list_here|]. apply elem_of_list_further. by apply (IH i).
Qed.

(** The counters. *)
Definition done_events (l : list sevent) : list Z := omap se_blocked l.

Lemma done_alter l id t b : l !! id = Some (mkSEvent t None) ->
  done_events (alter (fun e => mkSEvent (se_start e) (Some (b (se_start e)))) id l) ≡ₚ b t :: done_events l.
Proof.
  revert id. induction l as [|[t' b'] l IH]; intros [|id] H; cbn in H; try done.
  - injection H as -> ->. done.
  - cbn. unfold done_events in *. destruct b' as [b'|]; cbn; rewrite (IH id H); [|done]. apply perm_swap.
Qed.
Lemma filter_ne_length (l : list nat) i : NoDup l -> i ∈ l -> S (length (filter (fun j => j <> i) l)) = length l.
Proof.
  induction l as [|x l IH]; intros Hd Hi; [by apply elem_of_nil in Hi|]. apply NoDup_cons in Hd as [Hx Hd].
  rewrite filter_cons. destruct (decide (x = i)) as [->|Hn].
  - rewrite decide_False by (by intros ?). cbn. f_equal. assert (E : filter (fun j => j <> i) l = l); [|by rewrite E].
    clear -Hx. induction l as [|y l IH]; [done|]. apply not_elem_of_cons in Hx as [H1 H2]. rewrite filter_cons, decide_True by done. by rewrite IH.
  - rewrite decide_True by done. apply elem_of_cons in Hi as [->|Hi]; [done|]. cbn. by rewrite (IH Hd Hi).
Qed.
Lemma sum_perm (l l' : list Z) : l ≡ₚ l' -> foldr Z.add 0 l = foldr Z.add 0 l'.
Proof. induction 1; cbn; lia. Qed.

Theorem C46_counts n os now : (0 < n)%nat -> legal n os ->
  let c := to_proto (ev_run n os) now in let d := done_events (sp_run os) in
  c_completed c = Z.of_nat (length d) /\ c_pending c = Z.of_nat (length (sp_run os)) - Z.of_nat (length d) /\
  c_limited c = Z.of_nat (length (filter (fun b => 0 < b) d)) /\ c_wait c = foldr Z.add 0 d.
Proof.
  intros Hn L. cbn zeta. cbn [to_proto c_completed c_pending c_limited c_wait].
  induction os as [|o os IH] using rev_ind; [done|].
  assert (L' : legal n os) by (intros os1 o1 os2 ->; apply (L os1 o1 (os2 ++ [o])); by rewrite <- app_assoc).
  specialize (IH L'). pose proof (ring_run n os Hn L') as [R1 R2 R3 R4 R5 R6].
  pose proof (L os o [] eq_refl) as Lo. unfold ev_run, sp_run in *. rewrite !foldl_app. cbn [foldl].
  set (s := foldl ev_step (stats_new n) os) in *. set (l := foldl sp_step [] os) in *. clearbody s l. destruct IH as (I1 & I2 & I3 & I4).
  destruct o as [t0|id b t1]; cbn [ev_step sp_step] in *.
  - unfold create_event. cbn [snd s_completed s_active s_limited s_wait].
    assert (E : done_events (l ++ [mkSEvent t0 None]) = done_events l) by (unfold done_events; rewrite omap_app; cbn; by rewrite app_nil_r).
    rewrite E, app_length. cbn [length]. split; [done|]. split; [lia|]. done.
  - destruct Lo as (t & Ht). pose proof (R5 id (ex_intro _ t Ht)) as Ho. pose proof (R6 id _ Ht Ho) as He.
    pose proof (done_alter l id t (fun t => if b then t1 - t else 0) Ht) as HP. cbn beta in HP.
    unfold end_event. rewrite R1, He.
    set (e := if b then mkEvent _ _ _ else _). assert (Ee : e = mkEvent id t (if b then t1 - t else 0)) by (unfold e; by destruct b).
    clearbody e. subst e. unfold complete_event. cbn [s_events s_next s_active s_completed s_limited s_wait e_id e_start e_blocked].
    pose proof (filter_ne_length (s_active s) id R4 ltac:(apply R3; by exists t)) as Hf.
    rewrite alter_length. rewrite (Permutation_length HP). cbn [length].
    split; [lia|]. split; [lia|]. split.
    + rewrite (Permutation_length (filter_Permutation _ _ _ HP)) || rewrite HP. rewrite filter_cons.
      set (x := if b then t1 - t else 0). destruct (Z.ltb_spec 0 x); [rewrite decide_True by done; cbn; lia|rewrite decide_False by lia; lia].
    + rewrite (sum_perm _ _ HP). cbn. lia.
Qed.

(** ** Concrete cases *)

Definition ex_ev : list evop :=
  [EvBegin 10; EvEnd 0 false 10; EvBegin 11; EvBegin 12; EvEnd 1 true 20; EvEnd 2 false 12; EvBegin 30; EvBegin 31; EvEnd 4 false 31].
Example C46_example : legal 3 ex_ev /\
  history (sp_run ex_ev) 0 = [mkEvent 0 10 0; mkEvent 1 11 9; mkEvent 2 12 0] /\
  get_event_history (ev_run 3 ex_ev) 0 = Some [] /\ get_event_history (ev_run 4 ex_ev) 1 = Some [mkEvent 1 11 9] /\
  to_proto (ev_run 3 ex_ev) 40 = mkCallStats 1 4 1 9 10.
Proof.
  split; [|by vm_compute]. apply legal_intro. unfold ex_ev.
  repeat split; cbn; try (by eexists); intros id (t & H); (do 6 (destruct id as [|id]; [try done; try lia|])); done.
Qed.

(** One event has finished, the history is empty. *)
Theorem C46_history_refuted : forall n, (0 < n)%nat -> exists os, legal n os /\
  history (sp_run os) 0 = [mkEvent 0 10 0] /\ get_event_history (ev_run n os) 0 = Some [].
Proof.
  intros n Hn. exists [EvBegin 10; EvEnd 0 false 10].
  assert (L : legal n [EvBegin 10; EvEnd 0 false 10]).
  { apply legal_intro. repeat split; [|by eexists]. by intros id (t & H). }
  split; [done|]. split; [done|]. rewrite C46_history_partial; [|done|done|cbn; lia].
  cbn [length sp_run foldl sp_step app alter list_alter]. replace (Nat.max 0 (1 - n)) with 0%nat by lia. done.
Qed.

(** An event that is active for too long is overwritten and is never removed from
    the active ones: although all events have finished one counts as pending for
    ever, and the history never gets longer. *)
Theorem C46_overrun_refuted : exists os,
  (forall os1 id b t os2, os = os1 ++ EvEnd id b t :: os2 -> active (sp_run os1) id) /\
  (forall id, ~ active (sp_run os) id) /\ c_pending (to_proto (ev_run 2 os) 9) = 1 /\
  get_event_history (ev_run 2 os) 0 = Some [] /\ history (sp_run os) 1 = [mkEvent 1 2 0; mkEvent 2 3 0].
Proof.
  exists [EvBegin 1; EvBegin 2; EvEnd 1 false 2; EvBegin 3; EvEnd 2 false 3; EvEnd 0 true 4].
  split; [|split; [|by vm_compute]].
  - intros os1 id b t os2 E.
    do 6 (destruct os1 as [|? os1]; [cbn in E; try done; injection E as <- <- <- <-; by eexists|cbn in E; injection E as <- E]). by destruct os1.
  - intros id (t & H). do 4 (destruct id as [|id]; [done|]). done.
Qed.

Print Assumptions C46_history_partial.
Print Assumptions C46_reported_later.
Print Assumptions C46_counts.
Print Assumptions C46_history_refuted.
Print Assumptions C46_overrun_refuted.
