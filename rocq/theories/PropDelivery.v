(** C86: what a table hands out reaches the callers of Samplers. *)
From Verif Require Import Base Queue PropBoundedQueue Sampler PropSampler Delivery.

Section Delivery.
Context {A : Type} (len : A -> nat).
Implicit Types (p : sampler A) (c : rclient A) (x : A).

(** ** Specification *)

(** The elements of the queue, from the front. *)
Definition queued (q : queue A) : list A := omap (fun i => mjoin (q_buf q !! ((q_pops q + i) mod q_cap q)%nat)) (seq 0 (q_size q)).

(** What has been handed out for a Sampler and has not reached a caller yet: in
    calls in progress, in the sample whose timesteps are being handed out, in the
    queue, in the hands of the workers, on the streams. *)
Definition held c : list A :=
  p_busy (r_p c) ++ active_list (p_active (r_p c)) ++ queued (p_queue (r_p c)) ++ concat (in_hand <$> p_workers (r_p c)) ++ concat (r_pipes c).

(** Nothing fails: no stream breaks, no request times out while a caller waits, no
    sample is damaged or refused by a check, nobody closes the Sampler. *)
Definition undisturbed (e : rev A) : bool :=
  match e with
  | RGive _ _ late => negb late
  | RRead _ => true
  | RRun (NWorker _ e) => match e with VWrite ok _ => ok | VEof st => bool_decide (st = Ok) | VBad _ | VStray | VTableErr _ => false | _ => true end
  | RRun (NReturn _ ok) | RRun (NStepNext ok) => ok
  | RRun NClose => false
  | RRun _ => true
  end.

(** One thread calls the Sampler, and finishes with the timesteps of a sample before
    it asks for the next one. *)
Definition caller_ok c (e : rev A) : Prop :=
  match e with
  | RRun NPop => p_busy (r_p c) = [] /\ need_active (r_p c) = true
  | RRun NStepPop => p_busy (r_p c) = []
  | _ => True
  end.
Fixpoint one_caller c (es : list (rev A)) : Prop :=
  match es with [] => True | e :: es => caller_ok c e /\ match r_step len c e with Some c => one_caller c es | None => True end end.

(** ** Invariant *)

Lemma ring_queued q a : ring q a -> queued q = a_items a.
Proof.
  intros R. unfold queued. rewrite <- (rg_len _ _ R). pose proof (rg_at _ _ R) as H. revert H. generalize (a_items a) as l. intros l H.
  assert (G : forall k, (forall i x, l !! i = Some x -> q_buf q !! ((q_pops q + (k + i)) mod q_cap q)%nat = Some (Some x)) ->
    omap (fun i => mjoin (q_buf q !! ((q_pops q + i) mod q_cap q)%nat)) (seq k (length l)) = l); [|by apply (G 0%nat)].
  clear H. induction l as [|x l IH]; intros k H; [done|]. cbn. pose proof (H 0%nat x eq_refl) as H0. rewrite Nat.add_0_r in H0. rewrite H0. cbn. f_equal.
  apply IH. intros i y Hi. rewrite Nat.add_succ_comm. by apply H.
Qed.

Lemma alter_at {B} (f : B -> B) (i : nat) (l : list B) (b : B) : l !! i = Some b -> alter f i l = <[i := f b]> l.
Proof. revert i. induction l as [|y l IH]; intros [|i] H; try done; cbn in *; [by injection H as ->|]. f_equal. by apply IH. Qed.

(** Of a step of a worker: where its samples go. *)
Lemma push_flow p i w x asked got next p' : p_workers p !! i = Some w -> push_sample p i x asked got next = Some p' ->
  exists w', p_workers p' = <[i := w']> (p_workers p) /\ w_kind w' = w_kind w /\ w_cancelled w' = w_cancelled w /\ p_closed p' = p_closed p /\ p_status p' = p_status p /\
    ((w_pos w' = next /\ h_fetched p' = h_fetched p ++ [x]) \/ (w_pos w' = PRet asked got Cancelled /\ h_fetched p' = h_fetched p /\ (q_closed (p_queue p) || q_last (p_queue p)) = true)).
Proof.
  intros Hi. unfold push_sample, q_push. destruct (q_closed (p_queue p) || q_last (p_queue p)) eqn:Hc; cbn [orb].
  - intros [= <-]. exists (w_set_pos w (PRet asked got Cancelled)). split; [cbn; exact (alter_at _ _ _ _ Hi)|]. split; [done|]. split; [done|]. split; [done|]. split; [done|]. right. done.
  - destruct (q_size (p_queue p) <? q_cap (p_queue p))%nat; [|done]. intros [= <-]. exists (w_set_pos w next). split; [cbn; exact (alter_at _ _ _ _ Hi)|]. split; [done|]. split; [done|]. split; [done|]. split; [done|]. by left.
Qed.

Definition plain_event (e : wev A) : bool := match e with VSample _ | VTable _ => false | _ => true end.

Lemma set_pos_at p i w y : p_workers p !! i = Some w -> p_workers (p_set_pos p i y) = <[i := w_set_pos w y]> (p_workers p).
Proof. intros H. cbn. exact (alter_at _ _ _ _ H). Qed.

(** A step that moves the worker and nothing else. *)
Definition moved p p' (i : nat) (w w' : sworker A) : Prop :=
  p_workers p' = <[i := w']> (p_workers p) /\ w_kind w' = w_kind w /\ w_cancelled w' = w_cancelled w /\ p_closed p' = p_closed p.
Lemma move_at p i w y : p_workers p !! i = Some w -> moved p (p_set_pos p i y) i w (w_set_pos w y).
Proof. intros H. split; [by apply set_pos_at|]. done. Qed.

Lemma plain_flow m p i w e p' : sinv m p -> p_workers p !! i = Some w -> plain_event e = true -> w_step p i w e = Some p' ->
  exists w', moved p p' i w w' /\
    (fetched_out w' = false -> h_fetched p' ++ in_hand w' = h_fetched p ++ in_hand w /\ Z.max 0 (outstanding w) <= Z.max 0 (outstanding w')) /\
    (fetched_out w' = true -> h_fetched p' = h_fetched p /\ in_hand w' = []).
Proof.
  intros I Hi He H. pose proof (si_pos _ _ I) as HF. eapply Forall_lookup_1 in HF; [|exact Hi].
  unfold w_step in H. destruct (w_pos w) as [|asked|asked got|asked got req sampled|asked got items|asked res st|] eqn:Hw; cbn in HF.
  - destruct e; try done. destruct (should_stop p).
    + injection H as <-. eexists. split; [by apply move_at|]. unfold outstanding, in_hand. rewrite Hw. split; [done|]. done.
    + destruct (p_requested p <? p_max p); [|done]. injection H as <-. eexists. split; [by apply (move_at (p_set_counts p _ _))|]. unfold outstanding, in_hand. rewrite Hw. done.
  - destruct e; try done. destruct (w_kind w); injection H as <-; eexists; (split; [by apply move_at|]); unfold outstanding, in_hand; rewrite Hw; [by destruct (w_cancelled w)|done].
  - destruct e as [|ok st'| | | | |items| |st']; try done.
    + destruct (asked <=? got).
      * injection H as <-. eexists. split; [by apply move_at|]. unfold outstanding, in_hand. rewrite Hw. done.
      * destruct (w_kind w); [done|]. destruct (w_cancelled w); [|done]. injection H as <-. eexists. split; [by apply move_at|]. unfold outstanding, in_hand. rewrite Hw. done.
    + destruct (w_kind w) as [spr|]; [|done]. destruct (got <? asked); [|done]. injection H as <-. eexists. split; [by apply move_at|]. unfold outstanding, in_hand. rewrite Hw. destruct ok; [|done]. split; [|done]. intros _. split; [done|]. cbn. lia.
    + destruct (w_kind w) as [|flex]; [done|]. destruct (_ && _); [|done]. injection H as <-. exists w. split; [split; [|done]; by rewrite list_insert_id|]. unfold in_hand. rewrite Hw. done.
    + destruct (w_kind w) as [|flex]; [done|]. destruct (_ && _); [|done]. injection H as <-. eexists. split; [by apply move_at|]. unfold outstanding, in_hand. rewrite Hw. done.
  - destruct e as [| |x|st'|st'| | | |]; try done.
    + destruct (Z.leb_spec req sampled); [|done]. injection H as <-. eexists. split; [by apply move_at|]. unfold outstanding, in_hand. rewrite Hw. split; [|done]. intros _. split; [done|]. cbn. lia.
    + destruct (_ && _); [|done]. injection H as <-. eexists. split; [by apply move_at|]. unfold outstanding, in_hand. rewrite Hw. done.
    + destruct (_ <? _); [|done]. injection H as <-. eexists. split; [by apply move_at|]. unfold outstanding, in_hand. rewrite Hw. done.
    + destruct (_ <=? _); [|done]. injection H as <-. eexists. split; [by apply move_at|]. unfold outstanding, in_hand. rewrite Hw. done.
  - destruct e as [| |x|st'|st'| | | |]; try done; destruct items as [|x' l]; try done.
    + injection H as <-. eexists. split; [by apply move_at|]. unfold outstanding, in_hand. rewrite Hw. done.
    + destruct (push_flow _ _ _ _ _ _ _ _ Hi H) as (w' & E1 & E2 & E3 & E4 & E6 & [[E5 Ef]|(E5 & Ef & _)]); exists w'; (split; [done|]); unfold outstanding, in_hand, fetched_out; rewrite Hw, E5, Ef; [|done]. split; [|done].
      intros _. split; [by rewrite <- (assoc_L (++))|done].
    + destruct (bool_decide _); [done|]. injection H as <-. eexists. split; [by apply move_at|]. unfold outstanding, in_hand. rewrite Hw. done.
  - destruct e; try done. cbv zeta in H. match type of H with (if ?b then _ else _) = _ => destruct b end; injection H as <-.
    + eexists. split; [split; [by apply (set_pos_at (p_set_queue (p_set_flags (p_set_counts p _ _) _ _) _))|done]|]. unfold outstanding, in_hand. rewrite Hw. done.
    + eexists. split; [split; [by apply (set_pos_at (p_set_counts p _ _))|done]|]. unfold outstanding, in_hand. rewrite Hw. done.
  - by destruct e.
Qed.

Lemma sample_flow p i w x p' : p_workers p !! i = Some w -> w_step p i w (VSample x) = Some p' ->
  exists w' asked got req sampled, moved p p' i w w' /\ w_pos w = PRead asked got req sampled /\ sampled < req /\
    ((w_pos w' = PRead asked (got + 1) req (sampled + 1) /\ h_fetched p' = h_fetched p ++ [x]) \/
     (w_pos w' = PRet asked got Cancelled /\ h_fetched p' = h_fetched p /\ (q_closed (p_queue p) || q_last (p_queue p)) = true)).
Proof.
  intros Hi H. unfold w_step in H. destruct (w_pos w) as [|asked|asked got|asked got req sampled|asked got items|asked res st|] eqn:Hw; try done.
  destruct (Z.ltb_spec sampled req); [|done]. destruct (push_flow _ _ _ _ _ _ _ _ Hi H) as (w' & E1 & E2 & E3 & E4 & E6 & E5).
  exists w', asked, got, req, sampled. split; [done|]. split; [done|]. done.
Qed.
Lemma table_flow p i w l p' : p_workers p !! i = Some w -> w_step p i w (VTable l) = Some p' ->
  exists asked got, moved p p' i w (w_set_pos w (PPush asked got l)) /\ w_pos w = PTop asked got /\ h_fetched p' = h_fetched p /\ exists f, w_kind w = KLocal f.
Proof.
  intros Hi H. unfold w_step in H. destruct (w_pos w) as [|asked|asked got|asked got req sampled|asked got items|asked res st|] eqn:Hw; try done.
  destruct (w_kind w) as [|f] eqn:Hk; [done|]. destruct (_ && _); [|done]. injection H as <-. exists asked, got. split; [by apply move_at|]. split; [done|]. split; [done|]. by exists f.
Qed.

Lemma alter_same {B C} (g : B -> C) (f : B -> B) (i : nat) (l : list B) : (forall b, g (f b) = g b) -> g <$> alter f i l = g <$> l.
Proof. intros H. revert i. induction l as [|y l IH]; intros [|i]; cbn; f_equal; try done. Qed.
Lemma count_same p x : p_workers (count_returned p x) = p_workers p /\ h_fetched (count_returned p x) = h_fetched p.
Proof. unfold count_returned. cbv zeta. by destruct (_ =? _). Qed.

(** The calls of the user touch neither workers nor streams. *)
Lemma user_flow p e p' : (forall i e', e <> NWorker i e') -> p_step len p e = Some p' ->
  h_fetched p' = h_fetched p /\ in_hand <$> p_workers p' = in_hand <$> p_workers p /\ outstanding <$> p_workers p' = outstanding <$> p_workers p.
Proof.
  intros Hn H. destruct e as [i e| |i ok| |ok| |i|]; cbn [p_step] in H.
  - by destruct (Hn i e).
  - destruct (q_pop (p_queue p)) as [[[[x|]|] q]|]; try done. by injection H as <-.
  - destruct (p_busy p !! i) as [x|]; [|done]. cbn [mbind option_bind] in H. injection H as <-. destruct ok; [|done]. by rewrite (proj1 (count_same _ _)), (proj2 (count_same _ _)).
  - destruct (need_active p); [|done]. destruct (q_pop (p_queue p)) as [[[[x|]|] q]|]; try done. by injection H as <-.
  - destruct (p_active p) as [[x [|n]]|]; try done. cbv zeta in H. injection H as <-. destruct n; [|done]. destruct ok; [|done]. by rewrite (proj1 (count_same _ _)), (proj2 (count_same _ _)).
  - by injection H as <-.
  - destruct (p_closed p); [|done]. injection H as <-. split; [done|]. cbn. split; by apply alter_same.
  - destruct (p_closed p); [|done]. by injection H as <-.
Qed.

Lemma concat_insert {B} (l : list (list B)) (i : nat) (a b : list B) : l !! i = Some a -> concat (<[i := b]> l) ++ a ≡ₚ concat l ++ b.
Proof.
  revert i. induction l as [|y l IH]; intros [|i] H; try done; cbn in *.
  - injection H as ->. solve_Permutation.
  - rewrite <- !(assoc_L (++)). by rewrite (IH _ H).
Qed.

Record dinv (m : Z) c : Prop := {
  di_s : sinv m (r_p c);
  di_pipe : Forall2 (fun o pipe => Z.of_nat (length pipe) <= Z.max 0 o) (outstanding <$> p_workers (r_p c)) (r_pipes c);
  di_bal : r_given c ≡ₚ h_fetched (r_p c) ++ concat (in_hand <$> p_workers (r_p c)) ++ concat (r_pipes c) ++ r_lost c }.

Lemma pipes_insert (os : list Z) (pipes : list (list A)) i o pipe : Forall2 (fun o pipe => Z.of_nat (length pipe) <= Z.max 0 o) os pipes ->
  Z.of_nat (length pipe) <= Z.max 0 o -> Forall2 (fun o pipe => Z.of_nat (length pipe) <= Z.max 0 o) (<[i := o]> os) (<[i := pipe]> pipes).
Proof. intros H1 H2. by apply Forall2_insert. Qed.

Context (len_pos : forall x, (0 < len x)%nat).

(** The balance when a worker has moved. *)
Lemma moved_inv m c i w w' pipe pipe' p' given lost : dinv m c -> sinv m p' -> p_workers (r_p c) !! i = Some w -> r_pipes c !! i = Some pipe ->
  moved (r_p c) p' i w w' -> Z.of_nat (length pipe') <= Z.max 0 (outstanding w') ->
  (forall new, given = r_given c ++ new -> r_lost c ++ h_fetched (r_p c) ++ in_hand w ++ pipe ++ new ≡ₚ lost ++ h_fetched p' ++ in_hand w' ++ pipe') ->
  (exists new, given = r_given c ++ new) ->
  dinv m (mkRc p' (<[i := pipe']> (r_pipes c)) given lost).
Proof.
  intros [I P B] I' Hi Hp (Hw & _) Hl Hb [new Hg]. constructor; cbn [r_p r_pipes r_given r_lost].
  - done.
  - rewrite Hw, list_fmap_insert. by apply pipes_insert.
  - specialize (Hb new Hg). rewrite Hg, B, Hw, list_fmap_insert.
    assert (Hi' : (in_hand <$> p_workers (r_p c)) !! i = Some (in_hand w)) by by rewrite list_lookup_fmap, Hi.
    pose proof (concat_insert _ _ _ (in_hand w') Hi') as C1. pose proof (concat_insert _ _ _ pipe' Hp) as C2.
    revert Hb C1 C2. generalize (concat (<[i:=in_hand w']> (in_hand <$> p_workers (r_p c)))), (concat (in_hand <$> p_workers (r_p c))), (concat (<[i:=pipe']> (r_pipes c))), (concat (r_pipes c)),
      (h_fetched (r_p c)), (h_fetched p'), (in_hand w), (in_hand w'), (r_lost c). clear. intros T1 T0 P1 P0 F0 F1 a b L0 Hb C1 C2.
    apply (Permutation_app_inv_l (a ++ pipe)).
    transitivity ((T0 ++ b) ++ (P0 ++ pipe') ++ F1 ++ lost).
    + transitivity (T0 ++ P0 ++ (L0 ++ F0 ++ a ++ pipe ++ new)); [|rewrite Hb]; solve_Permutation.
    + rewrite <- C1, <- C2. solve_Permutation.
Qed.

Lemma pipe_at m c i w pipe : dinv m c -> p_workers (r_p c) !! i = Some w -> r_pipes c !! i = Some pipe -> Z.of_nat (length pipe) <= Z.max 0 (outstanding w).
Proof.
  intros I Hi Hp. pose proof (di_pipe _ _ I) as F. assert (Ho : (outstanding <$> p_workers (r_p c)) !! i = Some (outstanding w)) by by rewrite list_lookup_fmap, Hi.
  exact (Forall2_lookup_lr _ _ _ _ _ _ F Ho Hp).
Qed.

Lemma run_cases c e c' : r_step len c (RRun e) = Some c' ->
  (exists i w pipe p' e', e = NWorker i e' /\ plain_event e' = true /\ p_workers (r_p c) !! i = Some w /\ r_pipes c !! i = Some pipe /\
     (e' = VEof Ok -> pipe = []) /\ w_step (r_p c) i w e' = Some p' /\ after_step c i w p' pipe pipe = Some c') \/
  (exists p', (forall i e', e <> NWorker i e') /\ p_step len (r_p c) e = Some p' /\ c' = mkRc p' (r_pipes c) (r_given c) (r_lost c)).
Proof.
  assert (G : forall o : option (sampler A), o ≫= (fun p => Some (mkRc p (r_pipes c) (r_given c) (r_lost c))) = Some c' -> exists p', o = Some p' /\ c' = mkRc p' (r_pipes c) (r_given c) (r_lost c)).
  { intros [p'|] H; [|discriminate H]. injection H as <-. by exists p'. }
  destruct e as [i e'| |i ok| |ok| |i|]; cbn [r_step]; try (intros H; right; apply G in H as (p' & E & ->); exists p'; split; [intros ? ?; discriminate|]; split; [exact E|reflexivity]).
  intros H. left. assert (Hp : plain_event e' = true) by by destruct e'.
  assert (H' : (w ← p_workers (r_p c) !! i; pipe ← r_pipes c !! i; if ends_ok e' && negb (is_nil pipe) then None else p ← p_step len (r_p c) (NWorker i e'); after_step c i w p pipe pipe) = Some c') by by destruct e'.
  destruct (p_workers (r_p c) !! i) as [w|] eqn:Hi; [|discriminate H']. cbn [mbind option_bind p_step] in H'. destruct (r_pipes c !! i) as [pipe|] eqn:Hq; [|discriminate H']. cbn [mbind option_bind] in H'.
  destruct (ends_ok e' && negb (is_nil pipe)) eqn:Hend; [discriminate H'|]. rewrite Hi in H'. cbn [mbind option_bind] in H'. destruct (w_step (r_p c) i w e') as [p'|] eqn:Es; [|discriminate H']. cbn [mbind option_bind] in H'. exists i, w, pipe, p', e'.
  repeat (split; [done|]). split; [|done]. intros ->. by destruct pipe.
Qed.

Lemma r_step_inv m c e c' : dinv m c -> r_step len c e = Some c' -> dinv m c'.
Proof.
  intros D H. pose proof D as [I P B]. destruct e as [i l late|i|e].
  - cbn [r_step] in H. destruct (p_workers (r_p c) !! i) as [w|] eqn:Hi; [|done]. cbn [mbind option_bind] in H. destruct (r_pipes c !! i) as [pipe|] eqn:Hp; [|done]. cbn [mbind option_bind] in H.
    destruct (w_kind w) as [spr|flex].
    + destruct late.
      * injection H as <-. constructor; cbn [r_p r_pipes r_given r_lost]; try done. rewrite B. solve_Permutation.
      * destruct (Z.leb_spec (Z.of_nat (length pipe + length l)) (outstanding w)); [|done]. injection H as <-.
        eapply (moved_inv m c i w w pipe (pipe ++ l) (r_p c)); try done.
        { split; [by rewrite list_insert_id|done]. }
        { rewrite app_length. lia. }
        { intros new Hn. apply app_inv_head in Hn as <-. solve_Permutation. }
        { by eexists. }
    + destruct late; [done|]. cbn [p_step] in H. rewrite Hi in H. cbn [mbind option_bind] in H. destruct (w_step _ _ _ _) as [p'|] eqn:Es; [|done]. cbn [mbind option_bind] in H. injection H as <-.
      destruct (table_flow _ _ _ _ _ Hi Es) as (asked & got & Hm & Hw & Hf & _). rewrite <- (list_insert_id (r_pipes c) i pipe Hp).
      pose proof (pipe_at _ _ _ _ _ D Hi Hp) as Hl. unfold outstanding in Hl. rewrite Hw in Hl.
      eapply (moved_inv m c i w _ pipe pipe p'); try done.
      { by eapply w_step_inv. }
      { intros new Hn. apply app_inv_head in Hn as <-. unfold in_hand. rewrite Hw, Hf. cbn. solve_Permutation. }
      { by eexists. }
  - cbn [r_step] in H. destruct (p_workers (r_p c) !! i) as [w|] eqn:Hi; [|done]. cbn [mbind option_bind] in H. destruct (r_pipes c !! i) as [[|x rest]|] eqn:Hp; [done| |done]. cbn [mbind option_bind p_step] in H.
    rewrite Hi in H. cbn [mbind option_bind] in H. destruct (w_step _ _ _ _) as [p'|] eqn:Es; [|done]. cbn [mbind option_bind] in H.
    destruct (sample_flow _ _ _ _ _ Hi Es) as (w' & asked & got & req & sampled & Hm & Hw & Hlt & Hc). pose proof (pipe_at _ _ _ _ _ D Hi Hp) as Hl. unfold outstanding in Hl. rewrite Hw in Hl. cbn [length] in Hl.
    unfold after_step in H. pose proof Hm as (Hws & _). rewrite Hws, list_lookup_insert in H by (by eapply lookup_lt_Some). cbn [mbind option_bind] in H. unfold fetched_out in H.
    assert (I' : sinv m p') by by eapply w_step_inv.
    destruct Hc as [[Hw' Hf]|(Hw' & Hf & _)]; rewrite Hw' in H; injection H as <-.
    + eapply (moved_inv m c i w w' (x :: rest) rest p'); try done.
      { unfold outstanding. rewrite Hw'. lia. }
      { intros new Hn. assert (new = []) as -> by (apply (app_inv_head (r_given c)); by rewrite app_nil_r). unfold in_hand. rewrite Hw, Hw', Hf. solve_Permutation. }
      { exists []. by rewrite app_nil_r. }
    + eapply (moved_inv m c i w w' (x :: rest) [] p'); try done.
      { cbn. lia. }
      { intros new Hn. assert (new = []) as -> by (apply (app_inv_head (r_given c)); by rewrite app_nil_r). unfold in_hand. rewrite Hw, Hw', Hf. solve_Permutation. }
      { exists []. by rewrite app_nil_r. }
  - apply run_cases in H as [(i & w & pipe & p' & e' & -> & He & Hi & Hp & Hend & Es & H)|(p' & Hn & Es & ->)].
    + destruct (plain_flow _ _ _ _ _ _ I Hi He Es) as (w' & Hm & H1 & H2). assert (I' : sinv m p') by by eapply w_step_inv.
      pose proof (pipe_at _ _ _ _ _ D Hi Hp) as Hl. unfold after_step in H. pose proof Hm as (Hws & _). rewrite Hws, list_lookup_insert in H by (by eapply lookup_lt_Some). cbn [mbind option_bind] in H.
      destruct (fetched_out w') eqn:Hfo; injection H as <-.
      * destruct (H2 eq_refl) as [Hf Hh]. eapply (moved_inv m c i w w' pipe [] p'); try done.
        { cbn. lia. }
        { intros new Hn. assert (new = []) as -> by (apply (app_inv_head (r_given c)); by rewrite app_nil_r). rewrite Hf, Hh. solve_Permutation. }
        { exists []. by rewrite app_nil_r. }
      * destruct (H1 eq_refl) as [Hf Ho]. eapply (moved_inv m c i w w' pipe pipe p'); try done.
        { lia. }
        { intros new Hn. assert (new = []) as -> by (apply (app_inv_head (r_given c)); by rewrite app_nil_r). rewrite app_nil_r, (assoc_L (++) (h_fetched p')), Hf. solve_Permutation. }
        { exists []. by rewrite app_nil_r. }
    + destruct (user_flow _ _ _ Hn Es) as (Hf & Hh & Ho). constructor; cbn [r_p r_pipes r_given r_lost]; [|by rewrite Ho|by rewrite Hf, Hh]. by eapply (p_step_inv len len_pos).
Qed.

Lemma r_new_inv maxs ps nw kinds : valid_options maxs ps nw kinds -> dinv (limit maxs) (r_new maxs ps nw kinds).
Proof.
  intros Hv. constructor; cbn [r_new r_p r_pipes r_given r_lost].
  - by apply init_inv.
  - cbn. clear Hv. induction kinds as [|k ks IH]; [constructor|]. cbn. constructor; [done|exact IH].
  - cbn. clear Hv. induction kinds as [|k ks IH]; [done|]. cbn. exact IH.
Qed.
Lemma r_run_inv m es : forall c c', dinv m c -> r_run len c es = Some c' -> dinv m c'.
Proof.
  induction es as [|e es IH]; intros c c' D; cbn [r_run]; [by intros [= <-]|]. destruct (r_step len c e) as [c1|] eqn:E; [|done]. cbn [mbind option_bind]. apply IH. by eapply r_step_inv.
Qed.

(** ** C86 *)

(** Everything that the table handed out for a Sampler was returned to a caller, was
    refused, is on its way or is lost: each sample once. *)
Theorem C86_accounted maxs ps nw kinds es c : valid_options maxs ps nw kinds -> r_run len (r_new maxs ps nw kinds) es = Some c ->
  r_given c ≡ₚ h_returned (r_p c) ++ h_rejected (r_p c) ++ held c ++ r_lost c.
Proof.
  intros Hv Hr. pose proof (r_run_inv _ _ _ _ (r_new_inv _ _ _ _ Hv) Hr) as [I P B]. destruct (si_ring _ _ I) as (a & R & Hl & HP).
  unfold held. rewrite B, <- HP, (ring_queued _ _ R). solve_Permutation.
Qed.

(** *** Several Samplers *)

Lemma y_run_given es : forall y y', y_given y ≡ₚ concat (r_given <$> y_clients y) -> y_run len y es = Some y' -> y_given y' ≡ₚ concat (r_given <$> y_clients y').
Proof.
  induction es as [|[j e] es IH]; intros y y' Hy; cbn [y_run]; [by intros [= <-]|]. destruct (y_step len y j e) as [y1|] eqn:E; [|done]. cbn [mbind option_bind]. apply IH.
  unfold y_step in E. destruct (y_clients y !! j) as [c|] eqn:Hj; [|done]. cbn [mbind option_bind] in E. destruct (r_step len c e) as [c'|] eqn:Ec; [|done]. cbn [mbind option_bind] in E. injection E as <-. cbn [y_given y_clients].
  assert (Hg : r_given c' = r_given c ++ handed e).
  { destruct e as [i l late|i|e]; cbn [handed].
    - cbn [r_step] in Ec. destruct (p_workers (r_p c) !! i) as [w|]; [|done]. cbn [mbind option_bind] in Ec. destruct (r_pipes c !! i) as [pipe|]; [|done]. cbn [mbind option_bind] in Ec.
      destruct (w_kind w); destruct late; try done.
      + by injection Ec as <-.
      + destruct (_ <=? _); [|done]. by injection Ec as <-.
      + destruct (p_step _ _ _); [|done]. by injection Ec as <-.
    - rewrite app_nil_r. cbn [r_step] in Ec. destruct (p_workers (r_p c) !! i) as [w|]; [|done]. cbn [mbind option_bind] in Ec. destruct (r_pipes c !! i) as [[|x rest]|]; [done| |done]. cbn [mbind option_bind] in Ec.
      destruct (p_step _ _ _) as [p'|]; [|done]. cbn [mbind option_bind] in Ec. unfold after_step in Ec. destruct (p_workers p' !! i) as [w'|]; [|done]. cbn [mbind option_bind] in Ec. by destruct (fetched_out w'); injection Ec as <-.
    - rewrite app_nil_r. apply run_cases in Ec as [(i & w & pipe & p' & e' & -> & He & Hi & Hp & Hend & Es & H)|(p' & Hn & Es & ->)]; [|done].
      unfold after_step in H. destruct (p_workers p' !! i) as [w'|]; [|done]. cbn [mbind option_bind] in H. by destruct (fetched_out w'); injection H as <-. }
  rewrite list_fmap_insert, Hy. assert (Hl : (r_given <$> y_clients y) !! j = Some (r_given c)) by by rewrite list_lookup_fmap, Hj.
  pose proof (concat_insert _ _ _ (r_given c') Hl) as C. rewrite Hg in C at 2. apply (Permutation_app_inv_l (r_given c)).
  etransitivity; [|symmetry; etransitivity; [apply Permutation_app_comm|exact C]]. solve_Permutation.
Qed.

(** Some Samplers, as their constructors make them. *)
Definition samplers_new (cs : list (rclient A)) : Prop :=
  Forall (fun c => exists maxs ps nw kinds, valid_options maxs ps nw kinds /\ c = r_new maxs ps nw kinds) cs.
Lemma y_run_each es : forall y y', Forall (fun c => exists m, dinv m c) (y_clients y) -> y_run len y es = Some y' -> Forall (fun c => exists m, dinv m c) (y_clients y').
Proof.
  induction es as [|[j e] es IH]; intros y y' Hy; cbn [y_run]; [by intros [= <-]|]. destruct (y_step len y j e) as [y1|] eqn:E; [|done]. cbn [mbind option_bind]. apply IH.
  unfold y_step in E. destruct (y_clients y !! j) as [c|] eqn:Hj; [|done]. cbn [mbind option_bind] in E. destruct (r_step len c e) as [c'|] eqn:Ec; [|done]. cbn [mbind option_bind] in E. injection E as <-. cbn [y_clients].
  apply Forall_insert; [done|]. eapply Forall_lookup_1 in Hy as [m Hm]; [|exact Hj]. exists m. by eapply r_step_inv.
Qed.

Theorem C86_once cs es y : samplers_new cs -> y_run len (mkDsys cs []) es = Some y ->
  concat ((fun c => h_returned (r_p c)) <$> y_clients y) ⊆+ y_given y.
Proof.
  intros Hn Hr.
  assert (HF : Forall (fun c => exists m, dinv m c) (y_clients y)).
  { eapply y_run_each; [|exact Hr]. eapply Forall_impl; [exact Hn|]. intros c (maxs & ps & nw & kinds & Hv & ->). eexists. by apply r_new_inv. }
  assert (HG : y_given y ≡ₚ concat (r_given <$> y_clients y)).
  { eapply y_run_given; [|exact Hr]. cbn. clear Hr HF. induction Hn as [|c cs (maxs & ps & nw & kinds & _ & ->) _ IH]; [done|]. exact IH. }
  rewrite HG. clear HG Hr. revert HF. generalize (y_clients y). intros l HF. induction HF as [|c l [m [I _ B]] _ IH]; [done|]. cbn. apply submseteq_app; [|exact IH].
  destruct (si_ring _ _ I) as (a & _ & _ & HP). rewrite B, <- HP. rewrite <- !(assoc_L (++)). apply submseteq_inserts_r. done.
Qed.

(** *** Nothing is lost *)

Definition returned_ok (w : sworker A) : Prop := match w_pos w with PRet _ _ st => st = Ok | _ => True end.
Record uinv (m : Z) c : Prop := {
  u_d : dinv m c; u_lost : r_lost c = []; u_closed : p_closed (r_p c) = false; u_status : p_status (r_p c) = Ok; u_ret : Forall returned_ok (p_workers (r_p c)); u_rej : h_rejected (r_p c) = [] }.

Lemma sum_missing_at (ws : list (sworker A)) i w : Forall (fun w => pos_ok (w_kind w) (w_pos w)) ws -> ws !! i = Some w -> missing w <= sum missing ws.
Proof.
  intros HF. revert i. induction HF as [|v ws Hv HF IH]; intros [|i] Hi; try done; cbn in Hi.
  - injection Hi as ->. unfold sum. cbn. pose proof (missing_nonneg _ HF) as Hn. unfold sum in Hn. lia.
  - specialize (IH _ Hi). unfold sum in *. cbn. assert (0 <= missing v); [|lia]. destruct v as [k c []]; cbn in *; lia.
Qed.

(** When everything has been returned, nothing is asked for any more. *)
Lemma all_returned m p i w : sinv m p -> p_returned p = m -> p_workers p !! i = Some w -> missing w = 0.
Proof.
  intros I Hr Hi. pose proof (si_pos _ _ I) as HF. pose proof (sum_missing_at _ _ _ HF Hi). pose proof (si_total _ _ I) as Ht. rewrite asked_total_eq in Ht.
  destruct (si_ring _ _ I) as (a & _ & _ & HP). apply Permutation_length in HP. rewrite !app_length in HP. pose proof (si_ret _ _ I).
  assert (0 <= missing w); [|lia]. eapply Forall_lookup_1 in HF; [|exact Hi]. destruct w as [k c []]; cbn in *; lia.
Qed.
Lemma push_open m c i w : uinv m c -> p_workers (r_p c) !! i = Some w -> 0 < missing w -> (q_closed (p_queue (r_p c)) || q_last (p_queue (r_p c))) = false.
Proof.
  intros U Hi Hm. destruct (u_d _ _ U) as [I _ _]. destruct (si_ring _ _ I) as (a & R & Hl & _). rewrite (rg_last _ _ R), Hl, orb_false_r.
  destruct (q_closed (p_queue (r_p c))) eqn:Hc; [|done]. destruct (si_close _ _ I Hc) as [Hr|[Hr|Hr]].
  - pose proof (all_returned _ _ _ _ I Hr Hi). lia.
  - by rewrite (u_closed _ _ U) in Hr.
  - by destruct Hr; apply u_status with m.
Qed.

Lemma quiet_flow m c i w e p' : uinv m c -> p_workers (r_p c) !! i = Some w -> plain_event e = true -> undisturbed (RRun (NWorker i e)) = true -> w_step (r_p c) i w e = Some p' ->
  exists w', moved (r_p c) p' i w w' /\ p_status p' = Ok /\ h_rejected p' = [] /\ returned_ok w' /\ (fetched_out w' = true -> in_hand w = [] /\ (outstanding w <= 0 \/ e = VEof Ok)).
Proof.
  intros U Hi He Hu H. destruct (u_d _ _ U) as [I _ _]. pose proof (si_pos _ _ I) as HF. eapply Forall_lookup_1 in HF; [|exact Hi]. pose proof (u_ret _ _ U) as HR. eapply Forall_lookup_1 in HR; [|exact Hi].
  pose proof (si_cancel _ _ I (u_closed _ _ U)) as HC. eapply Forall_lookup_1 in HC; [|exact Hi]. cbn in HC. pose proof (u_status _ _ U) as HS. pose proof (u_rej _ _ U) as HJ.
  unfold w_step in H. unfold returned_ok in HR. destruct (w_pos w) as [|asked|asked got|asked got req sampled|asked got items|asked res st|] eqn:Hw; cbn in HF.
  - destruct e; try done. destruct (should_stop _).
    + injection H as <-. eexists. split; [by apply move_at|]. unfold outstanding, in_hand. rewrite Hw. done.
    + destruct (_ <? _); [|done]. injection H as <-. eexists. split; [by apply (move_at (p_set_counts (r_p c) _ _))|]. unfold outstanding, in_hand. rewrite Hw. done.
  - destruct e; try done. rewrite HC in H. destruct (w_kind w); injection H as <-; eexists; (split; [by apply move_at|]); unfold outstanding, in_hand; rewrite Hw; done.
  - destruct e as [|ok st'| | | | |items| |st']; try done.
    + destruct (Z.leb_spec asked got).
      * injection H as <-. eexists. split; [by apply move_at|]. unfold outstanding, in_hand. rewrite Hw. unfold returned_ok, fetch_end. cbn. rewrite (proj2 (Z.eqb_eq _ _)) by lia. split; [done|]. split; [done|]. split; [done|]. intros _. split; [done|]. left. lia.
      * rewrite HC in H. by destruct (w_kind w).
    + destruct (w_kind w) as [spr|]; [|done]. destruct (got <? asked); [|done]. injection H as <-. cbn in Hu. subst ok. eexists. split; [by apply move_at|]. unfold outstanding, in_hand. rewrite Hw. done.
    + destruct (w_kind w) as [|flex]; [done|]. destruct (_ && _); [|done]. injection H as <-. exists w. split; [split; [|done]; by rewrite list_insert_id|]. unfold in_hand, outstanding, returned_ok, fetched_out. rewrite Hw. done.
  - destruct e as [| |x|st'|st'| | | |]; try done.
    + destruct (Z.leb_spec req sampled); [|done]. injection H as <-. eexists. split; [by apply move_at|]. unfold outstanding, in_hand. rewrite Hw. done.
    + cbn in Hu. apply bool_decide_eq_true in Hu as ->. destruct (_ <? _); [|done]. injection H as <-. eexists. split; [by apply move_at|]. unfold outstanding, in_hand. rewrite Hw. split; [done|]. split; [done|]. split; [done|]. intros _. split; [done|by right].
  - destruct e as [| |x|st'|st'| | | |]; try done; destruct items as [|x' l]; try done.
    + injection H as <-. eexists. split; [by apply move_at|]. unfold outstanding, in_hand. rewrite Hw. done.
    + assert (Hj : h_rejected p' = h_rejected (r_p c)).
      { unfold push_sample in H. by destruct (q_push _ _) as [[[] q]|]; [injection H as <-..|]. }
      destruct (push_flow _ _ _ _ _ _ _ _ Hi H) as (w' & E1 & E2 & E3 & E4 & E6 & [[E5 Ef]|(E5 & Ef & Eq)]).
      * exists w'. split; [done|]. split; [by rewrite E6|]. split; [by rewrite Hj|]. unfold returned_ok, fetched_out. rewrite E5. done.
      * exfalso. rewrite (push_open _ _ _ _ U Hi) in Eq; [done|]. unfold missing. rewrite Hw. cbn [length] in HF. lia.
  - destruct e; try done. cbv zeta in H. cbn [p_status p_set_counts] in H. rewrite HS, HR in H. cbn in H. injection H as <-.
    eexists. split; [split; [by apply (set_pos_at (p_set_counts (r_p c) _ _))|done]|]. unfold outstanding, in_hand. rewrite Hw. done.
  - by destruct e.
Qed.

Lemma user_quiet p e p' : (forall i e', e <> NWorker i e') -> undisturbed (RRun e) = true -> p_closed p = false -> p_step len p e = Some p' ->
  p_closed p' = false /\ p_status p' = p_status p /\ p_workers p' = p_workers p /\ h_rejected p' = h_rejected p.
Proof.
  assert (G : forall p x, p_closed (count_returned p x) = p_closed p /\ p_status (count_returned p x) = p_status p /\ p_workers (count_returned p x) = p_workers p /\ h_rejected (count_returned p x) = h_rejected p).
  { intros q x. unfold count_returned. cbv zeta. by destruct (_ =? _). }
  intros Hn Hu Hc H. destruct e as [i e| |i ok| |ok| |i|]; cbn [p_step] in H; cbn in Hu; try done.
  - by destruct (Hn i e).
  - destruct (q_pop (p_queue p)) as [[[[x|]|] q]|]; try done. by injection H as <-.
  - destruct (p_busy p !! i) as [x|]; [|done]. cbn [mbind option_bind] in H. injection H as <-. rewrite Hu. destruct (G (p_set_calls p (delete i (p_busy p)) (p_active p)) x) as (-> & -> & -> & ->). done.
  - destruct (need_active p); [|done]. destruct (q_pop (p_queue p)) as [[[[x|]|] q]|]; try done. by injection H as <-.
  - destruct (p_active p) as [[x [|n]]|]; try done. cbv zeta in H. injection H as <-. destruct n; [|done]. rewrite Hu. destruct (G (p_set_calls p (p_busy p) (Some (x, 0%nat))) x) as (-> & -> & -> & ->). done.
  - by rewrite Hc in H.
  - by rewrite Hc in H.
Qed.

Lemma nil_pipe (l : list A) : Z.of_nat (length l) <= 0 -> l = [].
Proof. destruct l; [done|cbn; lia]. Qed.
Lemma step_quiet m c e c' : uinv m c -> undisturbed e = true -> r_step len c e = Some c' -> uinv m c'.
Proof.
  intros U Hu H. pose proof (u_d _ _ U) as D. pose proof (r_step_inv _ _ _ _ D H) as D'. pose proof D as [I P B]. pose proof (u_ret _ _ U) as HR. destruct e as [i l late|i|e].
  - cbn [r_step] in H. cbn in Hu. destruct late; [done|]. destruct (p_workers (r_p c) !! i) as [w|] eqn:Hi; [|done]. cbn [mbind option_bind] in H. destruct (r_pipes c !! i) as [pipe|] eqn:Hp; [|done]. cbn [mbind option_bind] in H.
    destruct (w_kind w) as [spr|flex] eqn:Hk.
    + destruct (_ <=? _); [|done]. injection H as <-. destruct U. by constructor.
    + cbn [p_step] in H. rewrite Hi in H. cbn [mbind option_bind] in H. destruct (w_step _ _ _ _) as [p'|] eqn:Es; [|done]. cbn [mbind option_bind] in H. injection H as <-.
      unfold w_step in Es. rewrite Hk in Es. destruct (w_pos w) eqn:Hw; try done. destruct (_ && _); [|done]. injection Es as <-. destruct U. constructor; try done. cbn [r_p]. rewrite (set_pos_at _ _ _ _ Hi). by apply Forall_insert.
  - cbn [r_step] in H. destruct (p_workers (r_p c) !! i) as [w|] eqn:Hi; [|done]. cbn [mbind option_bind] in H. destruct (r_pipes c !! i) as [[|x rest]|] eqn:Hp; [done| |done]. cbn [mbind option_bind p_step] in H.
    rewrite Hi in H. cbn [mbind option_bind] in H. destruct (w_step _ _ _ _) as [p'|] eqn:Es; [|done]. cbn [mbind option_bind] in H.
    destruct (sample_flow _ _ _ _ _ Hi Es) as (w' & asked & got & req & sampled & Hm & Hw & Hlt & Hc). unfold after_step in H. pose proof Hm as (Hws & Hk & Hca & Hcl).
    rewrite Hws, list_lookup_insert in H by (by eapply lookup_lt_Some). cbn [mbind option_bind] in H. unfold fetched_out in H.
    assert (Hq : p_status p' = p_status (r_p c) /\ h_rejected p' = h_rejected (r_p c)).
    { unfold w_step in Es. rewrite Hw in Es. destruct (_ <? _); [|done]. unfold push_sample in Es. by destruct (q_push _ _) as [[[] q]|]; [injection Es as <-..|]. }
    destruct Hc as [[Hw' Hf]|(Hw' & Hf & Hcl')]; rewrite Hw' in H; injection H as <-.
    + destruct U. destruct Hq as [Hq1 Hq2]. constructor; cbn [r_p r_pipes r_given r_lost]; try done; try congruence. rewrite Hws. apply Forall_insert; [done|]. unfold returned_ok. by rewrite Hw'.
    + exfalso. rewrite (push_open _ _ _ _ U Hi) in Hcl'; [done|]. unfold missing. rewrite Hw. pose proof (si_pos _ _ I) as HF. eapply Forall_lookup_1 in HF; [|exact Hi]. rewrite Hw in HF. cbn in HF. lia.
  - pose proof H as H0. apply run_cases in H as [(i & w & pipe & p' & e' & -> & He & Hi & Hp & Hend & Es & H)|(p' & Hn & Es & ->)].
    + destruct (quiet_flow _ _ _ _ _ _ U Hi He Hu Es) as (w' & Hm & Hst & Hrj & Hro & Hfo). pose proof Hm as (Hws & Hk & Hca & Hcl). unfold after_step in H.
      rewrite Hws, list_lookup_insert in H by (by eapply lookup_lt_Some). cbn [mbind option_bind] in H. pose proof (u_closed _ _ U).
      assert (HR' : Forall returned_ok (p_workers p')) by (rewrite Hws; by apply Forall_insert). pose proof (u_lost _ _ U) as HL.
      destruct (fetched_out w'); injection H as <-; (constructor; cbn [r_p r_pipes r_given r_lost]; try done; try congruence). destruct (Hfo eq_refl) as [Hh Ho]. pose proof (pipe_at _ _ _ _ _ D Hi Hp). rewrite HL, Hh. destruct Ho as [Ho|Ho]; [rewrite (nil_pipe pipe) by lia; done|by rewrite (Hend Ho)].
    + destruct (user_quiet _ _ _ Hn Hu (u_closed _ _ U) Es) as (H1 & H2 & H3 & H4). destruct U. constructor; cbn [r_p r_pipes r_given r_lost]; try done; congruence.
Qed.
Lemma r_run_quiet m es : forall c c', uinv m c -> Forall (fun e => undisturbed e = true) es -> r_run len c es = Some c' -> uinv m c'.
Proof.
  induction es as [|e es IH]; intros c c' U HF; cbn [r_run]; [by intros [= <-]|]. destruct (r_step len c e) as [c1|] eqn:E; [|done]. cbn [mbind option_bind]. apply Forall_cons in HF as [H1 H2]. apply IH; [|done]. by eapply step_quiet.
Qed.
Lemma r_new_quiet maxs ps nw kinds : valid_options maxs ps nw kinds -> uinv (limit maxs) (r_new maxs ps nw kinds).
Proof.
  intros Hv. constructor; try done; [by apply r_new_inv|]. cbn. apply Forall_fmap. apply Forall_forall. intros k _. done.
Qed.

(** If nothing fails, then no sample is lost; when the caller has got all the samples that it
    asked for, the table has handed out these and no others. *)
Theorem C86_nothing_lost maxs ps nw kinds es c : valid_options maxs ps nw kinds -> Forall (fun e => undisturbed e = true) es -> r_run len (r_new maxs ps nw kinds) es = Some c ->
  r_given c ≡ₚ h_returned (r_p c) ++ held c /\
  (Z.of_nat (length (h_returned (r_p c))) = limit maxs -> held c = []).
Proof.
  intros Hv HF Hr. pose proof (r_run_quiet _ _ _ _ (r_new_quiet _ _ _ _ Hv) HF Hr) as U. pose proof (C86_accounted _ _ _ _ _ _ Hv Hr) as HA. rewrite (u_lost _ _ U), (u_rej _ _ U), app_nil_r in HA. split; [exact HA|].
  intros Hl. destruct (u_d _ _ U) as [I P B]. pose proof (si_ret _ _ I) as Hs. rewrite Hl in Hs. destruct (si_ring _ _ I) as (a & R & _ & HP).
  assert (Hw : Forall (fun w => in_hand w = [] /\ outstanding w <= 0) (p_workers (r_p c))).
  { apply Forall_lookup. intros i w Hi. pose proof (all_returned _ _ _ _ I Hs Hi) as Hm. pose proof (si_pos _ _ I) as HO. eapply Forall_lookup_1 in HO; [|exact Hi]. destruct w as [k b []]; unfold in_hand, outstanding, missing in *; cbn in *; try (split; [done|lia]).
    split; [|lia]. apply nil_pipe. lia. }
  assert (H1 : concat (in_hand <$> p_workers (r_p c)) = []).
  { clear -Hw. induction Hw as [|w ws [E _] _ IH]; [done|]. cbn. by rewrite E, IH. }
  assert (H2 : concat (r_pipes c) = []).
  { revert P Hw. clear. generalize (p_workers (r_p c)), (r_pipes c). intros ws. induction ws as [|w ws IH]; intros pipes P Hw; cbn in P; inversion P as [|? pipe ? pipes' HP1 HP2]; subst; [done|].
    apply Forall_cons in Hw as [[_ Ho] Hw]. cbn. rewrite (nil_pipe pipe) by lia. by apply IH. }
  unfold held. rewrite H1, H2, !app_nil_r. apply Permutation_length in HP. rewrite (ring_queued _ _ R).
  assert (Hlen : Z.of_nat (length (h_fetched (r_p c))) <= limit maxs).
  { pose proof (si_total _ _ I) as Ht. rewrite asked_total_eq in Ht. pose proof (missing_nonneg _ (si_pos _ _ I)). lia. }
  rewrite !app_length in HP. apply nil_length_inv. rewrite !app_length. lia.
Qed.

(** *** Order *)

Record oinv (m : Z) c : Prop := {
  o_d : dinv m c;
  o_one : exists w pipe, p_workers (r_p c) = [w] /\ r_pipes c = [pipe] /\ h_fetched (r_p c) ++ in_hand w ++ pipe `sublist_of` r_given c /\
    match w_kind w with KLocal _ => pipe = [] | KGrpc _ => in_hand w = [] end;
  o_user : h_returned (r_p c) ++ p_busy (r_p c) ++ active_list (p_active (r_p c)) ++ queued (p_queue (r_p c)) `sublist_of` h_fetched (r_p c);
  o_busy : (length (p_busy (r_p c)) <= 1)%nat /\ (p_busy (r_p c) <> [] -> active_list (p_active (r_p c)) = []) }.

(** What a step of a worker does to the rest. *)
Lemma worker_rest m p i w e p' : sinv m p -> sinv m p' -> p_workers p !! i = Some w -> w_step p i w e = Some p' ->
  h_returned p' = h_returned p /\ p_busy p' = p_busy p /\ p_active p' = p_active p /\
  exists new, h_fetched p' = h_fetched p ++ new /\ queued (p_queue p') = queued (p_queue p) ++ new.
Proof.
  intros I I' Hi H.
  assert (G : forall x asked got next, push_sample p i x asked got next = Some p' -> h_returned p' = h_returned p /\ p_busy p' = p_busy p /\ p_active p' = p_active p /\
    exists new, h_fetched p' = h_fetched p ++ new /\ queued (p_queue p') = queued (p_queue p) ++ new).
  { intros x asked got next Hp. unfold push_sample in Hp. destruct (q_push (p_queue p) x) as [[b q]|] eqn:Hq; [|done].
    destruct (si_ring _ _ I) as (a & R & Hl & _). destruct (si_ring _ _ I') as (a' & R' & _ & _). pose proof (ring_step _ _ (QPush x) R) as (E1 & R1 & _). cbn [q_step] in E1, R1. rewrite Hq in E1, R1. cbn [fst snd a_step] in E1, R1.
    rewrite Hl, orb_false_r in E1, R1. destruct b; injection Hp as <-; cbn.
    - split; [done|]. split; [done|]. split; [done|]. exists [x]. split; [done|]. destruct (a_closed a) eqn:Ec; [done|]. case_decide; [|done]. cbn in R1. rewrite (ring_queued _ _ R), (ring_queued _ _ R1). done.
    - split; [done|]. split; [done|]. split; [done|]. exists []. rewrite !app_nil_r. split; [done|]. unfold q_push in Hq. destruct (q_closed (p_queue p) || q_last (p_queue p)); cbn [orb] in Hq; [by injection Hq as <-|]. by destruct (_ <? _)%nat. }
  assert (T : forall q, (q = p_queue p \/ q = q_close (p_queue p)) -> exists new, h_fetched p = h_fetched p ++ new /\ queued q = queued (p_queue p) ++ new).
  { intros q Hq. exists []. rewrite !app_nil_r. split; [done|]. by destruct Hq as [-> | ->]. }
  unfold w_step in H. destruct (w_pos w) as [|asked|asked got|asked got req sampled|asked got items|asked res st|], e as [|ok st'|x|st'|st'| |items'| |st']; try done.
  - destruct (should_stop p); [|destruct (_ <? _); [|done]]; injection H as <-; (split; [done|]; split; [done|]; split; [done|]); apply T; by left.
  - destruct (w_kind w); injection H as <-; (split; [done|]; split; [done|]; split; [done|]); apply T; by left.
  - destruct (_ <=? _); [|destruct (w_kind w); [done|]; destruct (w_cancelled w); [|done]]; injection H as <-; (split; [done|]; split; [done|]; split; [done|]); apply T; by left.
  - destruct (w_kind w); [|done]. destruct (_ <? _); [|done]. injection H as <-. split; [done|]; split; [done|]; split; [done|]. apply T; by left.
  - destruct (w_kind w); [done|]. destruct (_ && _); [|done]. injection H as <-. split; [done|]; split; [done|]; split; [done|]. apply T; by left.
  - destruct (w_kind w); [done|]. destruct (_ && _); [|done]. injection H as <-. split; [done|]; split; [done|]; split; [done|]. apply T; by left.
  - destruct (w_kind w); [done|]. destruct (_ && _); [|done]. injection H as <-. split; [done|]; split; [done|]; split; [done|]. apply T; by left.
  - destruct (_ <=? _); [|done]. injection H as <-. split; [done|]; split; [done|]; split; [done|]. apply T; by left.
  - destruct (_ <? _); [|done]. by eapply G.
  - destruct (_ && _); [|done]. injection H as <-. split; [done|]; split; [done|]; split; [done|]. apply T; by left.
  - destruct (_ <? _); [|done]. injection H as <-. split; [done|]; split; [done|]; split; [done|]. apply T; by left.
  - destruct (_ <=? _); [|done]. injection H as <-. split; [done|]; split; [done|]; split; [done|]. apply T; by left.
  - destruct items as [|x l]; [|by eapply G]. injection H as <-. split; [done|]; split; [done|]; split; [done|]. apply T; by left.
  - destruct items as [|x l]; [done|]. destruct (bool_decide _); [done|]. injection H as <-. split; [done|]; split; [done|]; split; [done|]. apply T; by left.
  - cbv zeta in H. match type of H with (if ?b then _ else _) = _ => destruct b end; injection H as <-; (split; [done|]; split; [done|]; split; [done|]); apply T; [by right|by left].
Qed.

Ltac pcbn := cbn [p_max p_per_stream p_requested p_returned p_closed p_status p_queue p_workers p_busy p_active h_fetched
  h_returned h_rejected p_set_counts p_set_queue p_set_flags p_set_workers p_set_calls p_set_history p_set_pos].
Lemma pop_queued m p x q : sinv m p -> q_pop (p_queue p) = Some (Some (Some x), q) -> queued (p_queue p) = x :: queued q.
Proof.
  intros I H. destruct (si_ring _ _ I) as (a & R & Hl & _). destruct (pop_ring _ _ _ _ R Hl H) as (l & Ei & R' & _). by rewrite (ring_queued _ _ R), (ring_queued _ _ R'), Ei.
Qed.
Lemma queued_close (q : queue A) : queued (q_close q) = queued q.
Proof. done. Qed.
Lemma count_order p x : h_returned (count_returned p x) = h_returned p ++ [x] /\ p_busy (count_returned p x) = p_busy p /\ p_active (count_returned p x) = p_active p /\ queued (p_queue (count_returned p x)) = queued (p_queue p).
Proof. unfold count_returned. cbv zeta. by destruct (_ =? _). Qed.

Lemma active_nil p : need_active p = true <-> active_list (p_active p) = [].
Proof. unfold need_active. destruct (p_active p) as [[x [|n]]|]; done. Qed.

Lemma user_order m c e p' : oinv m c -> (forall i e', e <> NWorker i e') -> caller_ok c (RRun e) -> p_step len (r_p c) e = Some p' ->
  h_returned p' ++ p_busy p' ++ active_list (p_active p') ++ queued (p_queue p') `sublist_of` h_fetched (r_p c) /\
  (length (p_busy p') <= 1)%nat /\ (p_busy p' <> [] -> active_list (p_active p') = []).
Proof.
  intros O Hn Hc H. destruct (o_d _ _ O) as [I _ _]. pose proof (o_user _ _ O) as HU. destruct (o_busy _ _ O) as [Hb1 Hb2]. set (p := r_p c) in *. destruct e as [i e| |i ok| |ok| |i|]; cbn [p_step] in H; cbn in Hc; try done.
  - by destruct (Hn i e).
  - fold p in Hc. destruct Hc as [Hb Ha]. destruct (q_pop (p_queue p)) as [[[[x|]|] q]|] eqn:Eq; try done. injection H as <-. pcbn. rewrite Hb in *. apply active_nil in Ha. rewrite Ha in *. cbn [app] in *.
    rewrite (pop_queued _ _ _ _ I Eq) in HU. split; [exact HU|]. split; [cbn; lia|done].
  - destruct (p_busy p !! i) as [x|] eqn:Hi; [|done]. cbn [mbind option_bind] in H. injection H as <-.
    destruct (p_busy p) as [|y [|z l]] eqn:Eb; [done| |cbn in Hb1; lia]. destruct i as [|i]; [|done]. cbn in Hi. injection Hi as ->.
    destruct ok.
    + destruct (count_order (p_set_calls p (delete 0%nat [x]) (p_active p)) x) as (-> & -> & -> & ->). pcbn. cbn [delete list_delete app]. rewrite <- (assoc_L (++)). split; [exact HU|]. split; [cbn; lia|done].
    + unfold reject. pcbn. cbn [delete list_delete app]. split; [|split; [cbn; lia|done]]. etransitivity; [|exact HU]. apply sublist_app; [done|]. by constructor.
  - fold p in Hc. destruct (need_active p) eqn:Ha; [|done]. destruct (q_pop (p_queue p)) as [[[[x|]|] q]|] eqn:Eq; try done. injection H as <-. pcbn. rewrite Hc in *. apply active_nil in Ha. rewrite Ha in HU. cbn [app] in *.
    rewrite (pop_queued _ _ _ _ I Eq) in HU. split; [|split; [cbn; lia|done]]. pose proof (len_pos x). cbn. destruct (len x); [lia|]. exact HU.
  - destruct (p_active p) as [[x [|n]]|] eqn:Ea; try done. cbv zeta in H. injection H as <-. cbn in HU, Hb2.
    assert (Hb : p_busy p = []) by (destruct (p_busy p); [done|]; discriminate Hb2; done). rewrite Hb in *. cbn [app] in HU.
    destruct n as [|n].
    + destruct ok.
      * destruct (count_order (p_set_calls p [] (Some (x, 0%nat))) x) as (-> & -> & -> & ->). pcbn. cbn. rewrite <- (assoc_L (++)). split; [exact HU|]. split; [lia|done].
      * unfold reject. pcbn. cbn. split; [|split; [lia|done]]. etransitivity; [|exact HU]. apply sublist_app; [done|]. by constructor.
    + pcbn. cbn. split; [exact HU|]. split; [lia|done].
  - injection H as <-. pcbn. done.
  - destruct (p_closed p); [|done]. injection H as <-. pcbn. done.
  - destruct (p_closed p); [|done]. injection H as <-. pcbn. done.
Qed.

Lemma one_insert {B} (x y : B) : <[0%nat := y]> [x] = [y].
Proof. done. Qed.
Lemma after_one c p p' w w' pipe rest c' : p_workers p' = [w'] -> r_pipes c = [pipe] -> after_step c 0 w p' pipe rest = Some c' ->
  r_p c' = p' /\ r_given c' = r_given c /\ r_pipes c' = [if fetched_out w' then [] else rest].
Proof. clear p. intros H1 H2 H. unfold after_step in H. rewrite H1, H2 in H. cbn in H. by destruct (fetched_out w'); injection H as <-. Qed.

Lemma sub_drop (a b c : list A) : a ++ c `sublist_of` a ++ b ++ c.
Proof. apply sublist_app; [done|]. by apply sublist_inserts_l. Qed.

Lemma step_order m c e c' : oinv m c -> caller_ok c e -> r_step len c e = Some c' -> oinv m c'.
Proof.
  intros O Hk H. pose proof (o_d _ _ O) as D. pose proof (r_step_inv _ _ _ _ D H) as D'. pose proof D as [I P B].
  destruct (o_one _ _ O) as (w & pipe & Hws & Hps & HS & Hkind).
  assert (W : forall e p', w_step (r_p c) 0 w e = Some p' -> sinv m p' ->
    h_returned p' ++ p_busy p' ++ active_list (p_active p') ++ queued (p_queue p') `sublist_of` h_fetched p' /\ (length (p_busy p') <= 1)%nat /\ (p_busy p' <> [] -> active_list (p_active p') = [])).
  { intros e0 p' Es I'. destruct (worker_rest m (r_p c) 0 w e0 p' I I') as (E1 & E2 & E3 & new & E4 & E5); [by rewrite Hws|done|].
    rewrite E1, E2, E3, E4, E5. split; [|exact (o_busy _ _ O)]. rewrite !(assoc_L (++)). apply sublist_app; [|done]. rewrite <- !(assoc_L (++)). exact (o_user _ _ O). }
  assert (Z : forall i v, p_workers (r_p c) !! i = Some v -> i = 0%nat /\ v = w).
  { intros [|i] v Hi; rewrite Hws in Hi; cbn in Hi; [by injection Hi as ->|done]. }
  destruct e as [i l late|i|e].
  - cbn [r_step] in H. destruct (p_workers (r_p c) !! i) as [v|] eqn:Hi; [|done]. destruct (Z _ _ Hi) as [-> ->]. rewrite Hps in H. cbn in H.
    destruct (w_kind w) as [spr|flex] eqn:Ek.
    + destruct late; [injection H as <-|destruct (_ <=? _); [|done]; injection H as <-].
      * constructor; [done| |exact (o_user _ _ O)|exact (o_busy _ _ O)]. exists w, pipe. cbn [r_p r_pipes r_given]. split; [done|]. split; [done|]. rewrite Ek. split; [|done]. etransitivity; [exact HS|]. by apply sublist_inserts_r.
      * constructor; [done| |exact (o_user _ _ O)|exact (o_busy _ _ O)]. exists w, (pipe ++ l). cbn [r_p r_pipes r_given]. split; [done|]. split; [reflexivity|]. rewrite Ek. split; [|done]. rewrite !(assoc_L (++)). apply sublist_app; [|done]. by rewrite <- (assoc_L (++)).
    + destruct late; [done|]. rewrite Hi in H. cbn in H. destruct (w_step _ _ _ _) as [p'|] eqn:Es; [|done]. cbn in H. injection H as <-.
      pose proof D' as [I' _ _]. cbn in I'. destruct (W _ _ Es I') as (G1 & G2). destruct (table_flow _ _ _ _ _ Hi Es) as (asked & got & (Hm & _) & Hw & Hf & _).
      constructor; [done| |done|done]. eexists _, pipe. cbn [r_p r_pipes r_given]. split; [by rewrite Hm, Hws|]. split; [done|]. rewrite Hf. cbn [w_kind w_set_pos]. rewrite Ek. split; [|done]. subst pipe. unfold in_hand in *. rewrite Hw in HS. cbn in *.
      rewrite !app_nil_r in *. by apply sublist_app.
  - cbn [r_step] in H. destruct (p_workers (r_p c) !! i) as [v|] eqn:Hi; [|done]. destruct (Z _ _ Hi) as [-> ->]. rewrite Hps in H. cbn [lookup list_lookup mbind option_bind] in H. destruct pipe as [|x rest]; [done|]. cbn [p_step] in H. rewrite Hi in H. cbn [mbind option_bind] in H. destruct (w_step _ _ _ _) as [p'|] eqn:Es; [|done]. cbn [mbind option_bind] in H.
    destruct (sample_flow _ _ _ _ _ Hi Es) as (w' & asked & got & req & sampled & (Hm & Hk' & _) & Hw & Hlt & Hc). rewrite Hws in Hm. cbn in Hm.
    destruct (after_one c (r_p c) p' w w' _ _ c' Hm Hps H) as (E1 & E2 & E3). pose proof D' as [I' _ _]. rewrite E1 in I'. destruct (W _ _ Es I') as (G1 & G2).
    constructor; [done| |by rewrite E1|by rewrite E1]. eexists w', _. rewrite E1, E2. split; [done|]. split; [exact E3|]. rewrite Hk'. unfold in_hand in *. rewrite Hw in *. cbn in HS.
    destruct (w_kind w); [|done]. unfold fetched_out. destruct Hc as [[Hw' Hf]|(Hw' & Hf & _)]; rewrite Hw', Hf; (split; [|done]); cbn.
    + by rewrite <- (assoc_L (++)).
    + rewrite app_nil_r. etransitivity; [|exact HS]. by apply sublist_inserts_r.
  - apply run_cases in H as [(i & v & pipe' & p' & e' & -> & He & Hi & Hp & Hend & Es & H)|(p' & Hn & Es & ->)].
    + destruct (Z _ _ Hi) as [-> ->]. rewrite Hps in Hp. cbn in Hp. injection Hp as <-. destruct (plain_flow _ _ _ _ _ _ I Hi He Es) as (w' & (Hm & Hk' & _) & H1 & H2). rewrite Hws in Hm. cbn in Hm.
      destruct (after_one c (r_p c) p' w w' _ _ c' Hm Hps H) as (E1 & E2 & E3). pose proof D' as [I' _ _]. rewrite E1 in I'. destruct (W _ _ Es I') as (G1 & G2).
      constructor; [done| |by rewrite E1|by rewrite E1]. eexists w', _. rewrite E1, E2. split; [done|]. split; [exact E3|]. rewrite Hk'. destruct (fetched_out w') eqn:Hfo.
      * destruct (H2 eq_refl) as [-> ->]. rewrite !app_nil_r. split; [|by destruct (w_kind w)]. etransitivity; [|exact HS]. by apply sublist_inserts_r.
      * destruct (H1 eq_refl) as [Hf _]. rewrite (assoc_L (++)), Hf, <- (assoc_L (++)). split; [done|]. destruct (w_kind w) eqn:Ek; [|done].
        rewrite Hkind, app_nil_r in Hf. destruct (worker_rest m (r_p c) 0 w e' p' I I' Hi Es) as (_ & _ & _ & new & Hnew & _). rewrite Hnew in Hf. rewrite <- (assoc_L (++)) in Hf.
        rewrite <- (app_nil_r (h_fetched (r_p c))) in Hf at 2. apply app_inv_head in Hf. by apply app_eq_nil in Hf as [_ Hf].
    + destruct (user_order _ _ _ _ O Hn Hk Es) as (G1 & G2). destruct (user_flow _ _ _ Hn Es) as (Hf & Hh & Ho).
      assert (Hw' : exists w', p_workers p' = [w'] /\ in_hand w' = in_hand w /\ w_kind w' = w_kind w).
      { rewrite Hws in Hh. destruct e as [i e| |i ok| |ok| |i|]; cbn [p_step] in Es; try (by destruct (Hn i e)).
        - destruct (q_pop _) as [[[[x|]|] q]|]; try done. injection Es as <-. by exists w.
        - destruct (p_busy _ !! i) as [x|]; [|done]. cbn [mbind option_bind] in Es. injection Es as <-. destruct ok; [|by exists w]. rewrite (proj1 (count_same _ _)). by exists w.
        - destruct (need_active _); [|done]. destruct (q_pop _) as [[[[x|]|] q]|]; try done. injection Es as <-. by exists w.
        - destruct (p_active _) as [[x [|n]]|]; try done. cbv zeta in Es. injection Es as <-. destruct n; [|by exists w]. destruct ok; [|by exists w]. rewrite (proj1 (count_same _ _)). by exists w.
        - injection Es as <-. by exists w.
        - destruct (p_closed _); [|done]. injection Es as <-. cbn. rewrite Hws. destruct i as [|i]; cbn; by eexists.
        - destruct (p_closed _); [|done]. injection Es as <-. by exists w. }
      destruct Hw' as (w' & Hw1 & Hw2 & Hw3). constructor; [done| |cbn [r_p]; by rewrite Hf|done]. exists w', pipe. cbn [r_p r_pipes r_given]. rewrite Hf, Hw2, Hw3. done.
Qed.

Lemma r_run_order m es : forall c c', oinv m c -> one_caller c es -> r_run len c es = Some c' -> oinv m c'.
Proof.
  induction es as [|e es IH]; intros c c' O; cbn [r_run one_caller]; [by intros _ [= <-]|]. intros [H1 H2] H. destruct (r_step len c e) as [c1|] eqn:E; [|done]. cbn [mbind option_bind] in H. eapply IH; [|exact H2|exact H]. by eapply step_order.
Qed.
Lemma r_new_order maxs ps nw k : valid_options maxs ps nw [k] -> oinv (limit maxs) (r_new maxs ps nw [k]).
Proof.
  intros Hv. pose proof (r_new_inv _ _ _ _ Hv) as D. constructor; [done| | |].
  - eexists _, []. split; [done|]. split; [done|]. split; [done|]. by destruct k.
  - cbn. destruct (si_ring _ _ (di_s _ _ D)) as (a & R & _ & HP). cbn in R. unfold queued. cbn. done.
  - cbn. split; [lia|done].
Qed.

Lemma same_length_sub (l k : list A) : l `sublist_of` k -> length l = length k -> l = k.
Proof.
  induction 1 as [|x l k H IH|x l k H IH]; intros Hl; [done|f_equal; apply IH; cbn in Hl; lia|]. apply sublist_length in H. cbn in Hl. lia.
Qed.

(** With one worker and one thread that calls the Sampler, samples arrive in the order
    in which the table handed them out; if nothing fails, without gaps. *)
Theorem C86_order maxs ps nw k es c : valid_options maxs ps nw [k] -> one_caller (r_new maxs ps nw [k]) es -> r_run len (r_new maxs ps nw [k]) es = Some c ->
  h_returned (r_p c) `sublist_of` r_given c /\
  (Forall (fun e => undisturbed e = true) es -> r_given c = h_returned (r_p c) ++ held c).
Proof.
  intros Hv Ho Hr. pose proof (r_run_order _ _ _ _ (r_new_order _ _ _ _ Hv) Ho Hr) as O. destruct (o_one _ _ O) as (w & pipe & Hws & Hps & HS & _). pose proof (o_user _ _ O) as HU.
  assert (Hs : h_returned (r_p c) ++ held c `sublist_of` r_given c).
  { unfold held. rewrite Hws, Hps. cbn. rewrite !app_nil_r. etransitivity; [|exact HS]. rewrite !(assoc_L (++)). do 2 (apply sublist_app; [|done]). by rewrite <- !(assoc_L (++)). }
  split; [etransitivity; [|exact Hs]; by apply sublist_inserts_r|]. intros HF. symmetry. apply same_length_sub; [exact Hs|]. apply Permutation_length. symmetry. by eapply C86_nothing_lost.
Qed.
End Delivery.

(** *** What is in a closed queue stays there *)

Lemma closed_step {A} (len : A -> nat) (c : rclient A) e c' : q_closed (p_queue (r_p c)) = true -> p_busy (r_p c) = [] -> active_list (p_active (r_p c)) = [] -> r_step len c e = Some c' ->
  q_closed (p_queue (r_p c')) = true /\ p_busy (r_p c') = [] /\ active_list (p_active (r_p c')) = [] /\ h_returned (r_p c') = h_returned (r_p c).
Proof.
  intros Hq Hb Ha H.
  assert (G : forall e p', p_step len (r_p c) e = Some p' -> q_closed (p_queue p') = true /\ p_busy p' = [] /\ active_list (p_active p') = [] /\ h_returned p' = h_returned (r_p c)).
  { clear H c' e. intros e p' H. revert Hq Hb Ha H. generalize (r_p c). clear c. intros p Hq Hb Ha H.
    assert (Hpop : forall x q, q_pop (p_queue p) <> Some (Some x, q)) by (intros x q; unfold q_pop; by rewrite Hq).
    destruct e as [i e| |i ok| |ok| |i|]; cbn [p_step] in H.
    - destruct (p_workers p !! i) as [w|]; [|done]. cbn [mbind option_bind] in H. unfold w_step in H.
      assert (P : forall x asked got next, push_sample p i x asked got next = Some p' -> q_closed (p_queue p') = true /\ p_busy p' = [] /\ active_list (p_active p') = [] /\ h_returned p' = h_returned p).
      { intros x asked got next Hp. unfold push_sample, q_push in Hp. rewrite Hq in Hp. cbn in Hp. by injection Hp as <-. }
      destruct (w_pos w) as [|asked|asked got|asked got req sampled|asked got items|asked res st|], e as [|ok st'|x|st'|st'| |items'| |st']; try done;
        repeat match type of H with
        | (match w_kind w with _ => _ end) = _ => destruct (w_kind w)
        | (if ?b then _ else _) = _ => destruct b
        | (match ?l with [] => _ | _ => _ end) = _ => destruct l
        | (let p := _ in _) = _ => cbv zeta in H
        end; try done; try (by eapply P); by injection H as <-.
    - destruct (q_pop (p_queue p)) as [[[[x|]|] q]|] eqn:E; try done. by destruct (Hpop (Some x) q).
    - rewrite Hb in H. done.
    - destruct (need_active p); [|done]. destruct (q_pop (p_queue p)) as [[[[x|]|] q]|] eqn:E; try done. by destruct (Hpop (Some x) q).
    - destruct (p_active p) as [[x [|n]]|]; done.
    - by injection H as <-.
    - destruct (p_closed p); [|done]. by injection H as <-.
    - destruct (p_closed p); [|done]. by injection H as <-. }
  destruct e as [i l late|i|e].
  - cbn [r_step] in H. destruct (p_workers (r_p c) !! i) as [w|]; [|done]. cbn [mbind option_bind] in H. destruct (r_pipes c !! i) as [pipe|]; [|done]. cbn [mbind option_bind] in H.
    destruct (w_kind w); destruct late; try done.
    + by injection H as <-.
    + destruct (_ <=? _); [|done]. by injection H as <-.
    + destruct (p_step _ _ _) as [p'|] eqn:E; [|done]. injection H as <-. by apply (G _ _ E).
  - cbn [r_step] in H. destruct (p_workers (r_p c) !! i) as [w|]; [|done]. cbn [mbind option_bind] in H. destruct (r_pipes c !! i) as [[|x rest]|]; [done| |done]. cbn [mbind option_bind] in H.
    destruct (p_step _ _ _) as [p'|] eqn:E; [|done]. cbn [mbind option_bind] in H. unfold after_step in H. destruct (p_workers p' !! i) as [w'|]; [|done]. cbn [mbind option_bind] in H.
    destruct (fetched_out w'); injection H as <-; by apply (G _ _ E).
  - apply run_cases in H as [(i & w & pipe & p' & e' & -> & He & Hi & Hp & Hend & Es & H)|(p' & Hn & Es & ->)].
    + assert (E : p_step len (r_p c) (NWorker i e') = Some p') by (cbn [p_step]; by rewrite Hi). unfold after_step in H. destruct (p_workers p' !! i) as [w'|]; [|done]. cbn [mbind option_bind] in H.
      destruct (fetched_out w'); injection H as <-; by apply (G _ _ E).
    + by apply (G _ _ Es).
Qed.
Lemma closed_run {A} (len : A -> nat) es : forall (c c' : rclient A), q_closed (p_queue (r_p c)) = true -> p_busy (r_p c) = [] -> active_list (p_active (r_p c)) = [] -> r_run len c es = Some c' ->
  h_returned (r_p c') = h_returned (r_p c).
Proof.
  induction es as [|e es IH]; intros c c' Hq Hb Ha; cbn [r_run]; [by intros [= <-]|]. destruct (r_step len c e) as [c1|] eqn:E; [|done]. cbn [mbind option_bind]. intros H.
  destruct (closed_step _ _ _ _ Hq Hb Ha E) as (H1 & H2 & H3 & H4). rewrite <- H4. by apply IH.
Qed.

(** ** Examples *)

Definition d_len (x : Z) : nat := 2.
Lemma d_len_pos x : (0 < d_len x)%nat.
Proof. unfold d_len. lia. Qed.

(** A worker [i] opens a stream and sends a request. *)
Definition d_open (i : nat) : list (rev Z) := [RRun (NWorker i VStep); RRun (NWorker i VStep); RRun (NWorker i (VWrite true Ok))].
Definition d_state (c0 : rclient Z) (es : list (rev Z)) : rclient Z := default c0 (r_run d_len c0 es).
Lemma d_state_ok c0 es : bool_decide (is_Some (r_run d_len c0 es)) = true -> r_run d_len c0 es = Some (d_state c0 es).
Proof. intros H. apply bool_decide_eq_true in H as [c Hc]. unfold d_state. by rewrite Hc. Qed.

(** One of two workers reports that its request timed out while a caller was waiting; before
    it has closed the queue, the other one receives a sample.  The table has handed it
    out, and no caller will ever get it. *)
Definition d_timeout_new : rclient Z := r_new (-1) (-1) 2 [KGrpc 1; KGrpc 1].
Definition d_timeout : list (rev Z) :=
  d_open 0 ++ d_open 1 ++ [RRun (NWorker 0 (VEof DeadlineExceeded)); RGive 1 [7] false; RRead 1; RRun (NWorker 0 VStep)].
Theorem C86_timeout_refuted : exists c, valid_options (-1) (-1) 2 [KGrpc 1; KGrpc 1] /\ r_run d_len d_timeout_new d_timeout = Some c /\
  r_given c = [7] /\ held c = [7] /\ forall es c', r_run d_len c es = Some c' -> h_returned (r_p c') = [].
Proof.
  exists (d_state d_timeout_new d_timeout). split; [by repeat constructor; right|]. split; [apply d_state_ok; vm_compute; reflexivity|]. split; [vm_compute; reflexivity|]. split; [vm_compute; reflexivity|].
  intros es c' H. rewrite (closed_run d_len es (d_state d_timeout_new d_timeout) c' ltac:(vm_compute; reflexivity) ltac:(vm_compute; reflexivity) ltac:(vm_compute; reflexivity) H). vm_compute. reflexivity.
Qed.

(** With two workers samples overtake each other: 1 was handed out before 2. *)
Definition d_two : list (rev Z) :=
  d_open 0 ++ d_open 1 ++ [RGive 0 [1] false; RGive 1 [2] false; RRead 1; RRead 0; RRun NPop; RRun (NReturn 0 true); RRun NPop; RRun (NReturn 0 true)].
Theorem C86_order_refuted : exists c, valid_options (-1) (-1) 2 [KGrpc 1; KGrpc 1] /\ r_run d_len d_timeout_new d_two = Some c /\
  Forall (fun e => undisturbed e = true) d_two /\ one_caller d_len d_timeout_new d_two /\ r_given c = [1; 2] /\ h_returned (r_p c) = [2; 1].
Proof.
  exists (d_state d_timeout_new d_two). split; [by repeat constructor; right|]. split; [apply d_state_ok; vm_compute; reflexivity|]. split; [by repeat constructor|].
  split; [vm_compute; repeat split|]. split; vm_compute; reflexivity.
Qed.

(** One worker, three samples as timesteps and as wholes; then the Sampler is done. *)
Definition d_one_new : rclient Z := r_new 3 2 1 [KGrpc 2].
Definition d_one : list (rev Z) :=
  d_open 0 ++ [RGive 0 [1] false; RGive 0 [2] false; RRead 0; RRun NStepPop; RRead 0; RRun (NStepNext true); RRun (NStepNext true); RRun NPop; RRun (NReturn 0 true);
    RRun (NWorker 0 VStep); RRun (NWorker 0 VStep); RRun (NWorker 0 VStep)] ++ d_open 0 ++ [RRun (NWorker 0 (VEof Ok)); RRun (NWorker 0 VStep)] ++ d_open 0 ++ [RGive 0 [3] false; RRead 0; RRun NPop; RRun (NReturn 0 true)].
Example C86_example : exists c, valid_options 3 2 1 [KGrpc 2] /\ r_run d_len d_one_new d_one = Some c /\
  Forall (fun e => undisturbed e = true) d_one /\ one_caller d_len d_one_new d_one /\ r_given c = [1; 2; 3] /\ h_returned (r_p c) = [1; 2; 3] /\ limit 3 = 3.
Proof.
  exists (d_state d_one_new d_one). split; [by repeat constructor; right|]. split; [apply d_state_ok; vm_compute; reflexivity|]. split; [by repeat constructor|].
  split; [vm_compute; repeat split|]. repeat split; vm_compute; reflexivity.
Qed.
(** Two Samplers, one of which is closed while a sample is on its way. *)
Definition d_many : list (nat * rev Z) :=
  (pair 0%nat <$> d_open 0) ++ (pair 1%nat <$> d_open 0) ++
  [(0%nat, RGive 0 [1] false); (1%nat, RGive 0 [2; 3] false); (1%nat, RRead 0); (1%nat, RRun NClose); (1%nat, RRun NCloseQueue); (1%nat, RRead 0); (0%nat, RRead 0); (0%nat, RRun NPop); (0%nat, RRun (NReturn 0 true)); (1%nat, RGive 0 [4] true)].
Example C86_many_example : samplers_new [d_one_new; d_one_new] /\ exists y, y_run d_len (mkDsys [d_one_new; d_one_new] []) d_many = Some y /\
  y_given y = [1; 2; 3; 4] /\ ((fun c => h_returned (r_p c)) <$> y_clients y) = [[1]; []] /\ (held <$> y_clients y) = [[]; [2]] /\ (r_lost <$> y_clients y) = [[]; [3; 4]].
Proof.
  split.
  - assert (valid_options 3 2 1 [KGrpc 2]) by by repeat constructor; right. repeat constructor; by eexists _, _, _, _.
  - eexists. split; [vm_compute; reflexivity|]. repeat split; vm_compute; reflexivity.
Qed.

Print Assumptions C86_accounted.
Print Assumptions C86_once.
Print Assumptions C86_nothing_lost.
Print Assumptions C86_order.
Print Assumptions C86_timeout_refuted.
Print Assumptions C86_order_refuted.
