(** C43 and C55: the Sampler. *)
From Verif Require Import Base Queue PropBoundedQueue Sampler.

Section Sampler.
Context {A : Type} (len : A -> nat).
Implicit Types (p : sampler A) (x : A).

(** ** Specification *)

(** Samples a worker has asked for and not received. *)
Definition missing (w : sworker A) : Z :=
  match w_pos w with
  | PEnter asked => asked
  | PTop asked got | PRead asked got _ _ | PPush asked got _ => asked - got
  | PWait | PRet _ _ _ | PExit => 0
  end.
(** Samples asked for in total: received or still to come. *)
Definition asked_total p : Z := Z.of_nat (length (h_fetched p)) + foldr Z.add 0 (missing <$> p_workers p).

(** A sampler as the constructor makes it, with valid options (sampler.cc:482-490
    and Sampler::Options::Validate). *)
Definition valid_options (maxs per_stream num_workers : Z) (kinds : list wkind) : Prop :=
  (maxs = -1 \/ 0 < maxs) /\ (per_stream = -1 \/ 0 < per_stream) /\ (num_workers = -1 \/ 0 < num_workers) /\
  Forall (fun k => match k with KGrpc spr => 0 < spr | KLocal flex => 0 < flex end) kinds.
Definition limit (maxs : Z) : Z := if maxs =? -1 then 2 ^ 63 - 1 else maxs.

(** ** The invariant *)

(** What the worker will give back to requested_, at most. *)
Definition pending (w : sworker A) : Z :=
  match w_pos w with PRet asked res _ => asked - res | _ => missing w end.
Definition pos_ok (k : wkind) (x : wpos A) : Prop :=
  match x with
  | PWait | PExit => True
  | PEnter asked => 0 <= asked
  | PTop asked got => 0 <= got <= asked
  | PRead asked got req sampled => 0 <= got <= asked /\ req - sampled <= asked - got
  | PPush asked got items => 0 <= got /\ Z.of_nat (length items) <= asked - got
  | PRet asked res _ => 0 <= res <= asked
  end.
Definition active_list (o : option (A * nat)) : list A := match o with Some (x, S _) => [x] | _ => [] end.
Definition sum (f : sworker A -> Z) (ws : list (sworker A)) : Z := foldr Z.add 0 (f <$> ws).

Record sinv (m : Z) p : Prop := {
  si_max : p_max p = m;
  si_ps : 0 < p_per_stream p;
  si_pos : Forall (fun w => pos_ok (w_kind w) (w_pos w)) (p_workers p);
  si_req : p_requested p <= m;
  si_open : p_closed p = false -> p_requested p = Z.of_nat (length (h_fetched p)) + sum pending (p_workers p);
  si_total : asked_total p <= m;
  si_cancel : p_closed p = false -> Forall (fun w => w_cancelled w = false) (p_workers p);
  si_ret : p_returned p = Z.of_nat (length (h_returned p));
  si_ring : exists a, ring (p_queue p) a /\ a_last a = false /\
    h_returned p ++ h_rejected p ++ p_busy p ++ active_list (p_active p) ++ a_items a ≡ₚ h_fetched p;
  si_close : q_closed (p_queue p) = true -> p_returned p = m \/ p_closed p = true \/ p_status p <> Ok;
  si_ret_close : p_returned p = m -> q_closed (p_queue p) = true;
  si_st_close : p_status p <> Ok -> q_closed (p_queue p) = true;
  si_exit : Forall (fun w => w_pos w = PExit -> should_stop p = true) (p_workers p) }.


Ltac pcbn := cbn [p_max p_per_stream p_requested p_returned p_closed p_status p_queue p_workers p_busy p_active h_fetched
  h_returned h_rejected p_set_counts p_set_queue p_set_flags p_set_workers p_set_calls p_set_history p_set_pos].
Lemma sum_alter (f : sworker A -> Z) g ws i w : ws !! i = Some w -> sum f (alter g i ws) = sum f ws - f w + f (g w).
Proof.
  revert i. induction ws as [|w' ws IH]; intros [|i] H; try done; unfold sum in *; cbn in *.
  - injection H as ->. lia.
  - rewrite (IH _ H). lia.
Qed.
Lemma asked_total_eq p : asked_total p = Z.of_nat (length (h_fetched p)) + sum missing (p_workers p).
Proof. done. Qed.
Lemma Forall_alter_i (P : sworker A -> Prop) g ws i w : ws !! i = Some w -> Forall P ws -> P (g w) -> Forall P (alter g i ws).
Proof.
  intros Hi HF Hg. apply Forall_lookup. intros j v Hj. destruct (decide (i = j)) as [<-|Hne].
  - rewrite list_lookup_alter, Hi in Hj. injection Hj as <-. done.
  - rewrite list_lookup_alter_ne in Hj by done. by eapply Forall_lookup_1 in HF.
Qed.
Lemma missing_pending (ws : list (sworker A)) : Forall (fun w => pos_ok (w_kind w) (w_pos w)) ws -> sum missing ws <= sum pending ws.
Proof.
  induction 1 as [|w ws Hw _ IH]; unfold sum in *; cbn; [done|]. unfold pending at 1. destruct w as [k c [] ]; cbn in *; lia.
Qed.
Lemma missing_nonneg (ws : list (sworker A)) : Forall (fun w => pos_ok (w_kind w) (w_pos w)) ws -> 0 <= sum missing ws.
Proof.
  induction 1 as [|w ws Hw _ IH]; unfold sum in *; cbn; [done|]. destruct w as [k c [] ]; cbn in *; lia.
Qed.

(** A step that only moves one worker. *)
Lemma sinv_move m p i w y : sinv m p -> p_workers p !! i = Some w -> pos_ok (w_kind w) y ->
  missing (w_set_pos w y) <= missing w -> (p_closed p = false -> pending (w_set_pos w y) = pending w) ->
  (y = PExit -> should_stop p = true) -> sinv m (p_set_pos p i y).
Proof.
  intros I Hi Hx Hm Hp He. destruct I. constructor; pcbn; try done.
  - eapply Forall_alter_i; [done|done|]. by destruct w.
  - intros Hc. rewrite (sum_alter _ _ _ _ _ Hi), si_open0 by done. rewrite Hp by done. lia.
  - rewrite asked_total_eq in *. pcbn. rewrite (sum_alter _ _ _ _ _ Hi). lia.
  - intros Hc. eapply Forall_alter_i; [done|by apply si_cancel0|]. cbn. specialize (si_cancel0 Hc).
    by eapply Forall_lookup_1 in si_cancel0.
  - eapply Forall_alter_i; [done|exact si_exit0|done].
Qed.

Lemma sinv_push m p i w x asked got next p' : sinv m p -> p_workers p !! i = Some w ->
  missing w = asked - got -> pending w = asked - got -> 0 <= got <= asked ->
  pos_ok (w_kind w) next -> missing (w_set_pos w next) = asked - got - 1 -> pending (w_set_pos w next) = asked - got - 1 ->
  next <> PExit ->
  push_sample p i x asked got next = Some p' -> sinv m p'.
Proof.
  intros I Hi Hm Hpd Hr Hok Hm' Hp' Hne H. unfold push_sample in H. destruct (q_push (p_queue p) x) as [[b q]|] eqn:Hq; [|done].
  assert (I' := I). destruct I. destruct si_ring0 as (a & R & Hl & Hperm).
  pose proof (ring_step _ _ (QPush x) R) as (E1 & R1 & _). cbn [q_step] in E1, R1. rewrite Hq in E1, R1. cbn [fst snd] in E1, R1.
  cbn [a_step] in E1, R1. rewrite Hl in E1, R1. rewrite orb_false_r in E1, R1.
  destruct b; injection H as <-.
  - destruct (a_closed a) eqn:Ec; [done|]. case_decide; [|done]. cbn in R1.
    constructor; pcbn; try done.
    + eapply Forall_alter_i; [done|done|]. done.
    + intros Hc. rewrite (sum_alter _ _ _ _ _ Hi), si_open0, app_length, Hpd, Hp' by done. cbn. lia.
    + rewrite asked_total_eq in *. pcbn. rewrite (sum_alter _ _ _ _ _ Hi), app_length, Hm, Hm'. cbn. lia.
    + intros Hc. specialize (si_cancel0 Hc). eapply Forall_alter_i; [done|done|]. cbn. by eapply Forall_lookup_1 in si_cancel0.
    + eexists. split; [exact R1|]. split; [done|]. cbn. rewrite <- Hperm. by rewrite !(assoc_L (++)).
    + intros Hc. exfalso. pose proof (rg_closed _ _ R1). cbn in *. congruence.
    + intros Hc. specialize (si_ret_close0 Hc). pose proof (rg_closed _ _ R). congruence.
    + intros Hc. specialize (si_st_close0 Hc). pose proof (rg_closed _ _ R). congruence.
    + eapply Forall_alter_i; [done|exact si_exit0|]. done.
  - assert (Hq' : q = p_queue p).
    { unfold q_push in Hq. destruct (q_closed (p_queue p) || q_last (p_queue p)); cbn [orb] in Hq; [by injection Hq|].
      by destruct (q_size (p_queue p) <? q_cap (p_queue p))%nat. }
    subst q. assert (sinv m (p_set_queue p (p_queue p))) by (by destruct p).
    eapply sinv_move; [done|done|cbn; done| | |done].
    + destruct w as [k c po]. cbn in *. lia.
    + intros _. rewrite Hpd. done.
Qed.


Lemma w_step_inv m p i w e p' : sinv m p -> p_workers p !! i = Some w -> w_step p i w e = Some p' -> sinv m p'.
Proof.
  intros I Hi H. pose proof (si_pos _ _ I) as HF. eapply Forall_lookup_1 in HF; [|exact Hi].
  unfold w_step in H. destruct w as [k c po]. cbn [w_pos w_kind w_cancelled] in *.
  destruct po as [|asked|asked got|asked got req sampled|asked got items|asked res st|]; cbn in HF.
  - destruct e; try done. destruct (should_stop p) eqn:Hs.
    + injection H as <-. by eapply sinv_move.
    + destruct (Z.ltb_spec (p_requested p) (p_max p)); [|done]. injection H as <-.
      pose proof (si_max _ _ I). pose proof (si_ps _ _ I).
      assert (Hcl : p_closed p = false) by (unfold should_stop in Hs; by destruct (p_closed p)).
      destruct I. constructor; pcbn; try done.
      * eapply Forall_alter_i; [done|done|]. cbn. lia.
      * lia.
      * intros Hc. rewrite (sum_alter _ _ _ _ _ Hi), si_open0 by done. cbn. lia.
      * rewrite asked_total_eq. pcbn. rewrite (sum_alter _ _ _ _ _ Hi). specialize (si_open0 Hcl).
        pose proof (missing_pending _ si_pos0). cbn. lia.
      * intros Hc. specialize (si_cancel0 Hc). eapply Forall_alter_i; [done|done|]. cbn. by eapply Forall_lookup_1 in si_cancel0; [|exact Hi].
      * eapply Forall_alter_i; [done|exact si_exit0|done].
  - destruct e; try done. destruct k; injection H as <-.
    + destruct c; eapply sinv_move; try done; cbn; try lia.
    + eapply sinv_move; try done; cbn; try lia.
  - destruct e as [|ok st| | | | |items| |st]; try done.
    + destruct (Z.leb_spec asked got).
      * injection H as <-. unfold fetch_end. eapply sinv_move; try done; cbn; try lia.
      * destruct k; [done|]. destruct c; [|done]. injection H as <-.
        eapply sinv_move; try done; cbn; try lia. intros Hc. exfalso. pose proof (si_cancel _ _ I Hc) as HC.
        eapply Forall_lookup_1 in HC; [|exact Hi]. done.
    + destruct k as [spr|]; [|done]. destruct (Z.ltb_spec got asked); [|done]. injection H as <-.
      destruct ok; eapply sinv_move; try done; cbn; try lia.
    + destruct k as [|flex]; [done|]. destruct c; [done|]. cbn [negb andb] in H. destruct (Z.ltb_spec got asked); [|done].
      cbn [andb] in H. destruct (Z.leb_spec (Z.of_nat (length items)) (Z.min flex (asked - got))); [|done]. injection H as <-.
      eapply sinv_move; try done; cbn; try lia.
    + destruct k as [|flex]; [done|]. destruct (negb c && (got <? asked)); [|done]. by injection H as <-.
    + destruct k as [|flex]; [done|]. destruct (_ && negb (bool_decide (st = Ok))) eqn:?; [|done]. injection H as <-.
      eapply sinv_move; try done; cbn; try lia.
  - destruct e as [| |x|st|st| | | |]; try done.
    + destruct (Z.leb_spec req sampled); [|done]. injection H as <-. eapply sinv_move; try done; cbn; try lia.
    + destruct (Z.ltb_spec sampled req); [|done].
      eapply sinv_push; [exact I|exact Hi|..|exact H]; cbn; try lia; try done.
    + destruct (_ && _); [|done]. injection H as <-. eapply sinv_move; try done; cbn; try lia.
    + destruct (sampled <? req); [|done]. injection H as <-. eapply sinv_move; try done; cbn; try lia.
    + destruct (req <=? sampled); [|done]. injection H as <-. eapply sinv_move; try done; cbn; try lia.
  - destruct e as [| |x|st|st| | | |]; try done; destruct items as [|x' l]; try done; cbn in HF.
    + injection H as <-. eapply sinv_move; try done; cbn; try lia.
    + eapply sinv_push; [exact I|exact Hi|..|exact H]; cbn; try lia; try done.
    + destruct (bool_decide _); [done|]. injection H as <-. eapply sinv_move; try done; cbn; try lia.
  - destruct e; try done. cbv zeta in H.
    assert (J : forall y cl stt q, (y = PWait \/ y = PExit) ->
      cl = p_closed p -> (stt = Ok \/ q_closed q = true) -> (stt = p_status p \/ p_status p = Ok) ->
      (q = p_queue p \/ (q = q_close (p_queue p) /\ stt <> Ok)) -> (y = PExit -> stt <> Ok) ->
      sinv m (p_set_pos (p_set_queue (p_set_flags (p_set_counts p (p_requested p - (asked - res)) (p_returned p)) cl stt) q) i y)).
    { intros y cl stt q Hx -> Hst Hst' Hq Hex. destruct I. destruct si_ring0 as (a & R & Hl & Hperm). constructor; pcbn; try done.
      - eapply Forall_alter_i; [done|done|]. by destruct Hx as [-> | ->].
      - lia.
      - intros Hc. rewrite (sum_alter _ _ _ _ _ Hi), si_open0 by done. destruct Hx as [-> | ->]; cbn; lia.
      - rewrite asked_total_eq in *. pcbn. rewrite (sum_alter _ _ _ _ _ Hi). destruct Hx as [-> | ->]; cbn; lia.
      - intros Hc. specialize (si_cancel0 Hc). eapply Forall_alter_i; [done|done|]. cbn. by eapply Forall_lookup_1 in si_cancel0; [|exact Hi].
      - destruct Hq as [-> |[-> _]]; [by exists a|]. exists (mkAQ (a_items a) true (a_last a)). split; [|done]. destruct R. by split.
      - intros Hc. destruct Hq as [-> |[-> Hq]]; [|by auto]. destruct (si_close0 Hc) as [?|[?|?]]; [by auto..|].
        destruct Hst' as [->|?]; [by auto|done].
      - intros Hc. destruct Hq as [-> |[-> Hq]]; [by auto|done].
      - intros Hc. by destruct Hst.
      - eapply Forall_alter_i; [done| |].
        + eapply Forall_impl; [exact si_exit0|]. intros w Hw He. specialize (Hw He). unfold should_stop in *. pcbn.
          destruct (p_closed p), (p_returned p =? p_max p); try done. cbn in *.
          apply negb_true_iff, bool_decide_eq_false in Hw. apply negb_true_iff, bool_decide_eq_false. destruct Hst' as [-> |]; done.
        + cbn. intros He. unfold should_stop. pcbn. rewrite bool_decide_false by auto. cbn. by rewrite orb_true_r. }
    match type of H with (if ?b then _ else _) = _ => destruct b eqn:Hb end; injection H as <-.
    + apply andb_true_iff in Hb as [Hb _]. apply andb_true_iff in Hb as [Hb1 Hb2].
      apply bool_decide_eq_true in Hb1. apply negb_true_iff, bool_decide_eq_false in Hb2. pcbn. cbn in Hb1.
      apply (J PExit (p_closed p) st (q_close (p_queue p))); auto.
    + assert (E : p_set_counts p (p_requested p - (asked - res)) (p_returned p) =
        p_set_queue (p_set_flags (p_set_counts p (p_requested p - (asked - res)) (p_returned p)) (p_closed p) (p_status p)) (p_queue p))
        by by destruct p.
      rewrite E. apply J; auto; try done. destruct (decide (p_status p = Ok)); [by left|]. right. by apply (si_st_close _ _ I).
  - by destruct e.
Qed.

Context (len_pos : forall x, (0 < len x)%nat).

Lemma pop_ring q a x q' : ring q a -> a_last a = false -> q_pop q = Some (Some (Some x), q') ->
  exists l, a_items a = x :: l /\ ring q' (mkAQ l false false) /\ q_closed q = false.
Proof.
  intros R Hl H. pose proof (ring_step _ _ QPop R) as (E1 & R1 & _). cbn [q_step] in E1, R1. rewrite H in E1, R1.
  cbn [fst snd a_step] in E1, R1. pose proof (rg_closed _ _ R) as Hc. destruct (a_closed a) eqn:Ec; [done|].
  destruct (a_items a) as [|y l] eqn:Ei; [done|]. cbn in E1. injection E1 as ->. exists l. split; [done|].
  rewrite Hl in R1. cbn [snd] in R1. split; [|done]. unfold a_drained in R1. cbn in R1. by destruct l.
Qed.

(** A step of the user that changes neither workers nor requests. *)
Record user_step p p' : Prop := {
  u_max : p_max p' = p_max p; u_ps : p_per_stream p' = p_per_stream p; u_req : p_requested p' = p_requested p;
  u_cl : p_closed p' = p_closed p; u_st : p_status p' = p_status p; u_ws : p_workers p' = p_workers p;
  u_f : h_fetched p' = h_fetched p }.

Lemma consume_inv m p p1 x (ok : bool) : sinv m p -> user_step p p1 -> p_queue p1 = p_queue p ->
  p_returned p1 = p_returned p -> h_returned p1 = h_returned p -> h_rejected p1 = h_rejected p ->
  x :: p_busy p1 ++ active_list (p_active p1) ≡ₚ p_busy p ++ active_list (p_active p) ->
  sinv m (if ok then count_returned p1 x else reject p1 x).
Proof.
  intros I U Hq Hr Hh Hj HP. destruct I, U. destruct si_ring0 as (a & R & Hl & Hperm).
  assert (Hlen : Z.of_nat (length (h_fetched p)) <= m).
  { rewrite asked_total_eq in *. pose proof (missing_nonneg _ si_pos0). lia. }
  assert (Hlt : p_returned p + 1 <= m).
  { apply Permutation_length in Hperm, HP. cbn [length] in HP. rewrite !app_length in HP. do 4 rewrite app_length in Hperm.
  lia. }
  destruct ok.
  - unfold count_returned.
    assert (K : forall c : bool, c = bool_decide (p_returned p + 1 = m) -> sinv m (let p2 := p_set_history (p_set_counts p1 (p_requested p1) (p_returned p1 + 1)) (h_fetched p1) (h_returned p1 ++ [x]) (h_rejected p1) in
       if c then p_set_queue p2 (q_close (p_queue p2)) else p2)).
    { intros c Hc. cbv zeta. destruct c.
      - symmetry in Hc. apply bool_decide_eq_true in Hc.
        constructor; pcbn; try done; try congruence.
        + rewrite u_req0, u_ws0, u_cl0, u_f0. done.
        + rewrite asked_total_eq in *. pcbn. by rewrite u_ws0, u_f0.
        + by rewrite u_ws0, u_cl0.
        + rewrite app_length. cbn. rewrite Hr, Hh, si_ret0. lia.
        + exists (mkAQ (a_items a) true (a_last a)). split; [rewrite Hq; destruct R; by split|]. split; [done|].
          cbn [a_items]. rewrite Hh, Hj, u_f0, <- Hperm. rewrite <- (assoc_L (++)). cbn.
          rewrite (assoc (++) (p_busy p)). rewrite <- HP. cbn. rewrite !(assoc (++)). cbn.
          rewrite <- !(assoc (++)). rewrite Permutation_middle. by rewrite <- Permutation_middle.
        + intros _. left. lia.
        + rewrite u_ws0. eapply Forall_impl; [exact si_exit0|]. intros w Hw He. unfold should_stop. pcbn. rewrite Hr, u_max0, si_max0.
          rewrite (proj2 (Z.eqb_eq _ _)) by lia. by rewrite orb_true_r.
      - symmetry in Hc. apply bool_decide_eq_false in Hc.
        constructor; pcbn; try done; try congruence.
        + rewrite u_req0, u_ws0, u_cl0, u_f0. done.
        + rewrite asked_total_eq in *. pcbn. by rewrite u_ws0, u_f0.
        + by rewrite u_ws0, u_cl0.
        + rewrite app_length. cbn. rewrite Hr, Hh, si_ret0. lia.
        + exists a. split; [by rewrite Hq|]. split; [done|].
          rewrite Hh, Hj, u_f0, <- Hperm. rewrite <- (assoc_L (++)). cbn.
          rewrite (assoc (++) (p_busy p)). rewrite <- HP. cbn. rewrite !(assoc (++)). cbn.
          rewrite <- !(assoc (++)). rewrite Permutation_middle. by rewrite <- Permutation_middle.
        + rewrite Hq, u_cl0, u_st0. intros E. destruct (si_close0 E) as [?|?]; [lia|by right].
        + by rewrite u_st0, Hq.
        + rewrite u_ws0. eapply Forall_impl; [exact si_exit0|]. intros w Hw He. specialize (Hw He). unfold should_stop in *. pcbn.
          rewrite Hr, u_max0, u_cl0, u_st0. destruct (Z.eqb_spec (p_returned p) (p_max p)); [lia|].
          destruct (p_closed p); [done|]. cbn in *. rewrite Hw. by rewrite orb_true_r. }
    cbv zeta. pcbn. specialize (K (p_returned p1 + 1 =? p_max p1)).
    assert (E : (p_returned p1 + 1 =? p_max p1) = bool_decide (p_returned p + 1 = m)).
    { rewrite Hr, u_max0, si_max0. destruct (Z.eqb_spec (p_returned p + 1) m); [by rewrite bool_decide_true|by rewrite bool_decide_false]. }
    specialize (K E). cbv zeta in K. pcbn. cbn [p_queue p_set_history p_set_counts] in K. exact K.
  - unfold reject. constructor; pcbn; try done; try congruence.
    + rewrite u_req0, u_ws0, u_cl0, u_f0. done.
    + rewrite asked_total_eq in *. pcbn. by rewrite u_ws0, u_f0.
    + by rewrite u_ws0, u_cl0.
    + exists a. split; [by rewrite Hq|]. split; [done|].
      rewrite Hh, Hj, u_f0, <- Hperm. rewrite <- (assoc_L (++)). cbn.
      rewrite (assoc (++) (p_busy p)). rewrite <- HP. cbn. rewrite <- !(assoc (++)). done.
    + rewrite Hq, u_cl0, u_st0, Hr. done.
    + rewrite Hq, Hr. done.
    + rewrite Hq, u_st0. done.
    + rewrite u_ws0. eapply Forall_impl; [exact si_exit0|]. intros w Hw He. specialize (Hw He). unfold should_stop in *. pcbn.
      by rewrite Hr, u_max0, u_cl0, u_st0.
Qed.

Lemma pop_inv m p q x busy act : sinv m p -> q_pop (p_queue p) = Some (Some (Some x), q) ->
  busy ++ active_list act ≡ₚ p_busy p ++ active_list (p_active p) ++ [x] ->
  sinv m (p_set_calls (p_set_queue p q) busy act).
Proof.
  intros I H HP. destruct I. destruct si_ring0 as (a & R & Hl & Hperm).
  destruct (pop_ring _ _ _ _ R Hl H) as (l & Ei & R' & Hcl). pose proof (rg_closed _ _ R') as Hc'. cbn in Hc'.
  constructor; pcbn; try done.
  - exists (mkAQ l false false). split; [done|]. split; [done|]. cbn [a_items]. rewrite <- Hperm, Ei.
    apply Permutation_app_head, Permutation_app_head. rewrite (assoc (++) busy), HP. by rewrite <- !(assoc (++)).
  - congruence.
  - intros E. specialize (si_ret_close0 E). congruence.
  - intros E. specialize (si_st_close0 E). congruence.
Qed.

Lemma p_step_inv m p e p' : sinv m p -> p_step len p e = Some p' -> sinv m p'.
Proof.
  intros I H. destruct e as [i e| |i ok| |ok| |i|]; cbn [p_step] in H.
  - destruct (p_workers p !! i) as [w|] eqn:Hi; [|done]. cbn in H. by eapply w_step_inv.
  - destruct (q_pop (p_queue p)) as [[[[x|]|] q]|] eqn:E; try done. injection H as <-. eapply pop_inv; [done|done|].
    rewrite <- (assoc (++)). apply Permutation_app_head. by rewrite Permutation_app_comm.
  - destruct (p_busy p !! i) as [x|] eqn:Hi; [|done]. cbn [mbind option_bind] in H. injection H as <-.
    apply consume_inv with p; try done. pcbn. apply delete_Permutation in Hi. by rewrite Hi at 2.
  - destruct (need_active p) eqn:Hn; [|done].
    destruct (q_pop (p_queue p)) as [[[[x|]|] q]|] eqn:E; try done. injection H as <-. eapply pop_inv; [done|done|].
    apply Permutation_app_head. unfold need_active in Hn. pose proof (len_pos x). cbn.
    destruct (len x); [lia|]. by destruct (p_active p) as [[? []]|].
  - destruct (p_active p) as [[x [|n]]|] eqn:Ha; try done. cbv zeta in H. injection H as <-.
    destruct n as [|n].
    + apply consume_inv with p; try done. pcbn. rewrite Ha. cbn. rewrite app_nil_r. by rewrite Permutation_app_comm.
    + destruct I. constructor; pcbn; try done. by rewrite Ha in si_ring0.
  - injection H as <-. destruct I. constructor; pcbn; try done; [by auto|]. eapply Forall_impl; [exact si_exit0|]. done.
  - destruct (p_closed p) eqn:Hc; [|done]. injection H as <-. destruct (p_workers p !! i) as [w|] eqn:Hi.
    + destruct I. constructor; pcbn; try done.
      * eapply Forall_alter_i; [done|done|]. cbn. by eapply Forall_lookup_1 in si_pos0.
      * congruence.
      * rewrite asked_total_eq in *. pcbn. rewrite (sum_alter _ _ _ _ _ Hi). unfold missing at 2 3. cbn. lia.
      * congruence.
      * eapply Forall_alter_i; [done|exact si_exit0|]. unfold should_stop. pcbn. by rewrite Hc.
    + assert (E : alter (fun w => mkSw (w_kind w) true (w_pos w)) i (p_workers p) = p_workers p).
      { apply list_eq. intros j. destruct (decide (i = j)) as [<-|]; [|by rewrite list_lookup_alter_ne].
        by rewrite list_lookup_alter, Hi. }
      rewrite E. by destruct p.
  - destruct (p_closed p) eqn:Hc; [|done]. injection H as <-. destruct I. constructor; pcbn; try done; [|by auto].
    destruct si_ring0 as (a & R & Hl & Hperm). exists (mkAQ (a_items a) true (a_last a)). split; [destruct R; by split|done].
Qed.

Lemma sum_init (f : sworker A -> Z) kinds : (forall k, f (mkSw k false PWait) = 0) ->
  sum f ((fun k => mkSw k false PWait) <$> kinds) = 0.
Proof. intros H. induction kinds as [|k ks IH]; [done|]. unfold sum in *. cbn. by rewrite H, IH. Qed.

Lemma init_inv maxs ps nw kinds : valid_options maxs ps nw kinds -> sinv (limit maxs) (p_new maxs ps nw kinds).
Proof.
  intros (Hm & Hp & Hn & Hk). assert (0 < limit maxs) by (unfold limit; destruct (Z.eqb_spec maxs (-1)); lia).
  unfold p_new. fold (limit maxs). constructor; pcbn; try done.
  - destruct (Z.eqb_spec ps (-1)); lia.
  - apply Forall_fmap, Forall_true. done.
  - lia.
  - intros _. rewrite sum_init; done.
  - rewrite asked_total_eq. pcbn. rewrite sum_init by done. cbn. lia.
  - intros _. apply Forall_fmap, Forall_true. done.
  - eexists. split; [apply ring_new|]. done.
  - lia.
  - apply Forall_fmap, Forall_true. done.
Qed.
Lemma reach_inv m p0 p : sinv m p0 -> p_reach len p0 p -> sinv m p.
Proof. intros H. induction 1; [done|]. by eapply p_step_inv. Qed.
Lemma sinv_fetched m p : sinv m p -> Z.of_nat (length (h_fetched p)) <= m.
Proof. intros I. pose proof (si_total _ _ I) as H. rewrite asked_total_eq in H. pose proof (missing_nonneg _ (si_pos _ _ I)). lia. Qed.
Lemma sinv_returned m p : sinv m p -> h_returned p ⊆+ h_fetched p.
Proof. intros I. destruct (si_ring _ _ I) as (a & _ & _ & H). rewrite <- H. apply submseteq_inserts_r. done. Qed.

(** ** C43 *)

(** At most [max_samples] samples are ever asked for, at most as many are handed to
    the caller, and each of them is one that was received, handed over once. *)
Theorem C43_bound maxs ps nw kinds p : valid_options maxs ps nw kinds ->
  p_reach len (p_new maxs ps nw kinds) p ->
  asked_total p <= limit maxs /\ Z.of_nat (length (h_returned p)) <= limit maxs /\ h_returned p ⊆+ h_fetched p.
Proof.
  intros Hv Hr. pose proof (reach_inv _ _ _ (init_inv _ _ _ _ Hv) Hr) as I. split; [apply I|].
  pose proof (sinv_returned _ _ I) as Hs. split; [|done]. apply submseteq_length in Hs. pose proof (sinv_fetched _ _ I). lia.
Qed.

(** The samples that were asked for only grow, and by at most the rest. *)
Theorem C43_request maxs ps nw kinds p i w p' : valid_options maxs ps nw kinds ->
  p_reach len (p_new maxs ps nw kinds) p -> p_workers p !! i = Some w -> w_pos w = PWait ->
  p_step len p (NWorker i VStep) = Some p' ->
  (exists n, 0 < n <= limit maxs - asked_total p /\ asked_total p' = asked_total p + n /\
     w_pos <$> p_workers p' !! i = Some (PEnter n)) \/ w_pos <$> p_workers p' !! i = Some PExit.
Proof.
  intros Hv Hr Hi Hw H. pose proof (reach_inv _ _ _ (init_inv _ _ _ _ Hv) Hr) as I. cbn [p_step] in H. rewrite Hi in H. cbn [mbind option_bind] in H.
  unfold w_step in H. rewrite Hw in H. destruct (should_stop p) eqn:Hs.
  - injection H as <-. right. pcbn. by rewrite list_lookup_alter, Hi.
  - destruct (Z.ltb_spec (p_requested p) (p_max p)) as [Hlt|]; [|done]. injection H as <-. left.
    assert (Hcl : p_closed p = false) by (unfold should_stop in Hs; by destruct (p_closed p)).
    pose proof (si_max _ _ I). pose proof (si_ps _ _ I). pose proof (si_open _ _ I Hcl) as Ho.
    pose proof (missing_pending _ (si_pos _ _ I)). pose proof (asked_total_eq p).
    exists (Z.min (p_per_stream p) (p_max p - p_requested p)). split; [lia|]. split.
    + rewrite asked_total_eq. pcbn. rewrite (sum_alter _ _ _ _ _ Hi). destruct w as [k c po]. cbn in Hw. subst po. cbn. lia.
    + pcbn. by rewrite list_lookup_alter, Hi.
Qed.

(** Once [max_samples] samples have been handed over, every call reports
    OutOfRange, for ever. *)
Lemma sinv_full m p : sinv m p -> Z.of_nat (length (h_returned p)) = m -> pop_failure p = Some OutOfRange.
Proof.
  intros I H. pose proof (si_ret _ _ I) as Hr. rewrite H in Hr. pose proof (si_ret_close _ _ I Hr) as Hc.
  unfold pop_failure, q_pop. rewrite Hc. cbn [orb]. rewrite (proj2 (Z.eqb_eq _ _)); [done|]. by rewrite (si_max _ _ I).
Qed.
Lemma returned_grows p e p' : p_step len p e = Some p' -> h_returned p `prefix_of` h_returned p'.
Proof.
  assert (HC : forall p x (ok : bool), h_returned p `prefix_of` h_returned (if ok then count_returned p x else reject p x)).
  { intros q x []; unfold count_returned, reject; cbv zeta; pcbn; [case_match; pcbn; by apply prefix_app_r|done]. }
  assert (HP : forall p i x a g n p', push_sample p i x a g n = Some p' -> h_returned p' = h_returned p).
  { intros q i x a g n q'. unfold push_sample. destruct (q_push _ _) as [[[] ?]|]; [..|done]; by intros [= <-]. }
  intros H. destruct e as [i e| |i ok| |ok| |i|]; cbn [p_step] in H.
  - destruct (p_workers p !! i) as [w|]; [|done]. cbn [mbind option_bind] in H. unfold w_step in H. cbv zeta in H.
    repeat case_match; simplify_eq; try done; by rewrite (HP _ _ _ _ _ _ _ H).
  - repeat case_match; simplify_eq; done.
  - destruct (p_busy p !! i); [|done]. cbn [mbind option_bind] in H. injection H as <-. etrans; [|apply HC]. done.
  - repeat case_match; simplify_eq; done.
  - destruct (p_active p) as [[x [|n]]|]; try done. cbv zeta in H. injection H as <-. destruct n; [|done].
    etrans; [|apply HC]. done.
  - by injection H as <-.
  - case_match; by simplify_eq.
  - case_match; by simplify_eq.
Qed.
Theorem C43_out_of_range maxs ps nw kinds p p' : valid_options maxs ps nw kinds ->
  p_reach len (p_new maxs ps nw kinds) p -> Z.of_nat (length (h_returned p)) = limit maxs -> p_reach len p p' ->
  pop_failure p' = Some OutOfRange /\ h_returned p' = h_returned p.
Proof.
  intros Hv Hr Hf Hr'. pose proof (reach_inv _ _ _ (init_inv _ _ _ _ Hv) Hr) as I.
  pose proof (reach_inv _ _ _ I Hr') as I'.
  assert (Hp : h_returned p `prefix_of` h_returned p').
  { clear -Hr'. induction Hr'; [done|]. etrans; [done|]. by eapply returned_grows. }
  assert (h_returned p' = h_returned p) as E.
  { destruct Hp as [l Hl]. pose proof (sinv_returned _ _ I') as Hs. apply submseteq_length in Hs. pose proof (sinv_fetched _ _ I').
    rewrite Hl in Hs. rewrite app_length in Hs. rewrite Hl. destruct l; [by rewrite app_nil_r|cbn in Hs; lia]. }
  split; [|done]. apply (sinv_full (limit maxs)); [done|]. by rewrite E.
Qed.

(** A call that fails has a reason: it never reports success without a sample. *)
Theorem C43_failure maxs ps nw kinds p st : valid_options maxs ps nw kinds ->
  p_reach len (p_new maxs ps nw kinds) p -> pop_failure p = Some st ->
  match st with
  | Ok => False
  | OutOfRange => Z.of_nat (length (h_returned p)) = limit maxs \/ p_status p = OutOfRange
  | Cancelled => p_closed p = true \/ p_status p = Cancelled
  | _ => p_status p = st
  end.
Proof.
  intros Hv Hr H. pose proof (reach_inv _ _ _ (init_inv _ _ _ _ Hv) Hr) as I. unfold pop_failure, q_pop in H.
  destruct (q_closed (p_queue p)) eqn:Hc; cbn [orb] in H.
  - pose proof (si_close _ _ I Hc) as Hcl. pose proof (si_max _ _ I) as Hm. pose proof (si_ret _ _ I) as Hre.
    destruct (Z.eqb_spec (p_returned p) (p_max p)); [injection H as <-; left; lia|].
    destruct (p_closed p) eqn:Hp; [injection H as <-; by left|]. injection H as <-.
    destruct Hcl as [?|[?|?]]; [lia|done|]. destruct (p_status p); try done; by right.
  - destruct (_ <? _)%nat; [|done]. by destruct (q_take _).
Qed.

(** ** C55: a call never waits in vain *)

Definition call_waits p : Prop := q_pop (p_queue p) = None.
(** Somebody can end the wait: a worker is fetching samples or can start to, or the
    sampler is being closed. *)
Definition help_on_the_way p : Prop :=
  p_closed p = true \/
  exists i w, p_workers p !! i = Some w /\ w_pos w <> PExit /\
    (w_pos w = PWait -> exists p', p_step len p (NWorker i VStep) = Some p').

(** True as long as every popped sample could be handed over. *)
Theorem C55_partial maxs ps nw kinds p : valid_options maxs ps nw kinds -> kinds <> [] ->
  p_reach len (p_new maxs ps nw kinds) p -> h_rejected p = [] -> p_busy p = [] -> need_active p = true ->
  call_waits p -> help_on_the_way p.
Proof.
  intros Hv Hk Hr Hrej Hb Ha Hw. pose proof (reach_inv _ _ _ (init_inv _ _ _ _ Hv) Hr) as I.
  unfold help_on_the_way. destruct (p_closed p) eqn:Hc; [by left|]. right.
  destruct (si_ring _ _ I) as (a & R & Hl & HP).
  assert (Hq : q_closed (p_queue p) = false) by (unfold call_waits, q_pop in Hw; by destruct (q_closed (p_queue p)), (q_take (p_queue p))).
  assert (Hai : a_items a = []).
  { unfold call_waits, q_pop in Hw. rewrite Hq in Hw. cbn [orb] in Hw. destruct (Nat.ltb_spec (q_pops (p_queue p)) (q_pushes (p_queue p))).
    - by destruct (q_take _).
    - pose proof (rg_len _ _ R) as Hn. unfold q_size in Hn. apply nil_length_inv. lia. }
  assert (Hact : active_list (p_active p) = []) by (unfold need_active in Ha; by destruct (p_active p) as [[? []]|]).
  rewrite Hrej, Hb, Hact, Hai in HP. cbn in HP. apply Permutation_length in HP. rewrite app_nil_r in HP.
  assert (Hret : p_returned p <> limit maxs) by (intros E; pose proof (si_ret_close _ _ I E); congruence).
  assert (Hst : p_status p = Ok) by (destruct (decide (p_status p = Ok)) as [|E]; [done|pose proof (si_st_close _ _ I E); congruence]).
  assert (Hss : should_stop p = false).
  { unfold should_stop. rewrite Hc, Hst, bool_decide_true, (si_max _ _ I), (proj2 (Z.eqb_neq _ _)); done. }
  pose proof (si_open _ _ I Hc) as Ho. pose proof (si_ret _ _ I) as Hre. pose proof (sinv_fetched _ _ I) as Hfe.
  assert (Hne : p_workers p <> []).
  { assert (length (p_workers p) = length kinds) as E.
    { clear -Hr. remember (p_new maxs ps nw kinds) as p0. assert (length (p_workers p0) = length kinds) as E0 by (subst; cbn; by rewrite fmap_length).
      clear Heqp0. induction Hr as [|p e p' _ IH H]; [done|]. rewrite <- IH. clear IH E0.
      assert (HP : forall p i x a g n p', push_sample p i x a g n = Some p' -> length (p_workers p') = length (p_workers p)).
      { intros q i x a g n q'. unfold push_sample. destruct (q_push _ _) as [[[] ?]|]; [..|done]; intros [= <-]; pcbn; by rewrite alter_length. }
      assert (HC : forall p x, p_workers (count_returned p x) = p_workers p) by (intros q x; unfold count_returned; cbv zeta; by case_match).
      destruct e as [i e| |i ok| |ok| |i|]; cbn [p_step] in H.
      - destruct (p_workers p !! i) as [w|]; [|done]. cbn [mbind option_bind] in H. unfold w_step in H. cbv zeta in H.
        repeat case_match; simplify_eq; pcbn; rewrite ?alter_length; try done; by rewrite (HP _ _ _ _ _ _ _ H).
      - repeat case_match; simplify_eq; done.
      - destruct (p_busy p !! i); [|done]. cbn [mbind option_bind] in H. injection H as <-. destruct ok; [by rewrite HC|done].
      - repeat case_match; simplify_eq; done.
      - repeat case_match; simplify_eq; try done; by rewrite HC.
      - by injection H as <-.
      - case_match; simplify_eq; pcbn; by rewrite ?alter_length.
      - case_match; by simplify_eq. }
    intros En. rewrite En in E. by destruct kinds. }
  set (wt := fun w : sworker A => match w_pos w with PWait => true | _ => false end).
  assert (Hwt : forall w, wt w = true -> w_pos w = PWait) by (intros [k c []]; done).
  destruct (decide (Forall (fun w => wt w = true) (p_workers p))) as [HF|HF].
  2: apply not_Forall_Exists in HF; [|apply _].
  { eapply Forall_impl in HF; [|exact Hwt].
    destruct (p_workers p) as [|w ws] eqn:Ews; [done|]. exists 0%nat, w. cbn. split; [done|].
    assert (Hwp : w_pos w = PWait) by (by inversion HF). split; [by rewrite Hwp|]. intros _.
    cbn [p_step]. rewrite Ews. cbn [lookup list_lookup mbind option_bind]. unfold w_step. rewrite Hwp, Hss, (si_max _ _ I).
    assert (Hz : sum pending (w :: ws) = 0).
    { clear -HF. induction HF as [|v l Hv _ IH]; [done|]. unfold sum in *. cbn. rewrite IH. unfold pending, missing. by rewrite Hv. }
    rewrite (proj2 (Z.ltb_lt _ _)); [by eexists|]. lia. }
  { apply Exists_exists in HF as (v & Hin & Hvp). apply elem_of_list_lookup in Hin as [i Hi]. exists i, v. split; [done|].
    split; [|intros E; exfalso; apply Hvp; unfold wt; by rewrite E].
    intros E. pose proof (si_exit _ _ I) as HX. eapply Forall_lookup_1 in HX; [|exact Hi]. specialize (HX E). congruence. }
Qed.

End Sampler.

(** ** Examples *)

(** Two workers, one over a stream and one local, 3 samples; a stream fails with
    Unavailable after one sample and is tried again. *)
Definition ex_len (x : Z) : nat := 2.
Definition ex_p0 : sampler Z := p_new 3 2 2 [KGrpc 5; KLocal 4].
Example ex_valid : valid_options 3 2 2 [KGrpc 5; KLocal 4].
Proof. split; [by right|]. split; [by right|]. split; [by right|]. repeat constructor. Qed.
Definition ex_events : list (nev Z) :=
  [NWorker 0 VStep; NWorker 1 VStep; NWorker 0 VStep; NWorker 1 VStep; NWorker 0 (VWrite true Ok); NWorker 1 VRetry;
   NWorker 1 (VTable [11]); NWorker 0 (VSample 21); NWorker 1 VStep; NPop; NWorker 0 (VEof Unavailable); NWorker 0 VStep;
   NWorker 0 VStep; NWorker 0 VStep; NWorker 0 (VWrite true Ok); NStepPop; NStepNext true; NReturn 0 true; NStepNext true;
   NWorker 0 (VSample 22); NPop; NReturn 0 true].
Lemma p_run_reach {A} (len : A -> nat) es : forall p0 p p', p_reach len p0 p -> p_run len p es = Some p' -> p_reach len p0 p'.
Proof.
  induction es as [|e es IH]; intros p0 p p' H E; cbn in E; [by injection E as <-|].
  destruct (p_step len p e) as [p1|] eqn:E1; cbn in E.
  - eapply IH; [by econstructor|exact E].
  - exfalso. clear -E. induction es; cbn in E; [done|auto].
Qed.
Example C43_example : exists p, p_reach ex_len ex_p0 p /\ h_returned p = [21; 11; 22] /\ h_fetched p = [21; 11; 22] /\
  pop_failure p = Some OutOfRange.
Proof.
  eexists. split; [eapply (p_run_reach _ ex_events); [constructor|vm_compute; reflexivity]|]. done.
Qed.
Example C55_example : exists p, p_reach ex_len ex_p0 p /\ h_rejected p = [] /\ p_busy p = [] /\ need_active p = true /\
  h_returned p <> [] /\ call_waits p.
Proof.
  eexists. split; [eapply (p_run_reach _ (take 12 ex_events ++ [NReturn 0 true; NStepPop; NStepNext true; NStepNext true])); [constructor|vm_compute; reflexivity]|].
  vm_compute. done.
Qed.

(** C55 as stated is false: if a popped sample does not fit the signature, the
    sampler neither asks for another one nor counts it.  After the other
    [max_samples - 1] samples nothing can happen any more except Close, and the
    next call waits. *)
Theorem C55_refuted : exists p : sampler Z, p_reach ex_len (p_new 2 (-1) 1 [KGrpc 100]) p /\
  h_returned p = [7] /\ h_rejected p = [8] /\ p_closed p = false /\ p_busy p = [] /\ call_waits p /\ pop_failure p = None /\
  forall e p', p_step ex_len p e = Some p' -> e = NClose.
Proof.
  eexists. split.
  { eapply (p_run_reach _ [NWorker 0 VStep; NWorker 0 VStep; NWorker 0 (VWrite true Ok); NWorker 0 (VSample 7); NPop;
       NWorker 0 (VSample 8); NWorker 0 VStep; NWorker 0 VStep; NWorker 0 VStep; NReturn 0 true; NPop; NReturn 0 false]);
      [constructor|vm_compute; reflexivity]. }
  do 6 (split; [done|]). intros e p' H.
  destruct e as [[|i] e| |i ok| |ok| |i|]; try done.
  - by destruct e.
Qed.

Print Assumptions C43_bound.
Print Assumptions C43_request.
Print Assumptions C43_out_of_range.
Print Assumptions C43_failure.
Print Assumptions C55_partial.
Print Assumptions C55_refuted.
