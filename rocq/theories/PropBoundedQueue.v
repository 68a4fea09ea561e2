(** C32 and C33: the bounded queue. *)
From Verif Require Import Base Queue.

Section Queue.
Context {A : Type}.
Implicit Types (q : queue A) (x : A).

(** ** Specification *)

(** The elements that were pushed and popped, as the callers see it. *)
Definition pushed (os : list (qop A)) (rs : list (qres A)) : list A :=
  concat (zip_with (fun o r => match o, r with QPush x, QBool true => [x] | _, _ => [] end) os rs).
Definition popped (rs : list (qres A)) : list (option A) :=
  concat ((fun r => match r with QItem x => [x] | QBatch PopOk l => l | _ => [] end) <$> rs).

(** A plain bounded queue: contents, closed, last element pushed. *)
Record aqueue := mkAQ { a_items : list A; a_closed : bool; a_last : bool }.
Definition a_drained (a : aqueue) : aqueue :=
  match a_items a with [] => mkAQ [] (a_closed a || a_last a) (a_last a) | _ => a end.
Definition a_step (cap : nat) (a : aqueue) (o : qop A) : qres A * aqueue :=
  match o with
  | QPush x =>
    if a_closed a || a_last a then (QBool false, a)
    else if decide (length (a_items a) < cap)%nat then (QBool true, mkAQ (a_items a ++ [x]) false false)
    else (QWait, a)
  | QPop =>
    if a_closed a then (QNone, a)
    else match a_items a with
         | [] => (QWait, a)
         | x :: l => (QItem (Some x), a_drained (mkAQ l false (a_last a)))
         end
  | QPopBatch b timeout =>
    if decide (0 <= b <= Z.of_nat cap) then
      if a_closed a then (QBatch PopCancelled [], a)
      else if a_last a then (QBatch PopExhausted [], a)
      else if decide (Z.to_nat b <= length (a_items a))%nat then
        (QBatch PopOk (Some <$> take (Z.to_nat b) (a_items a)), mkAQ (drop (Z.to_nat b) (a_items a)) false false)
      else if timeout then (QBatch PopDeadline [], a) else (QWait, a)
    else (QBatch PopInvalid [], a)
  | QSetLast => (QVoid, a_drained (mkAQ (a_items a) (a_closed a) true))
  | QClose => (QVoid, mkAQ (a_items a) true (a_last a))
  end.
Fixpoint a_run (cap : nat) (a : aqueue) (os : list (qop A)) : list (qres A) * aqueue :=
  match os with
  | [] => ([], a)
  | o :: os => let '(r, a) := a_step cap a o in let '(rs, a) := a_run cap a os in (r :: rs, a)
  end.

(** ** The ring buffer holds the list *)

Record ring (q : queue A) (a : aqueue) : Prop := {
  rg_le : (q_pops q <= q_pushes q)%nat;
  rg_len : length (a_items a) = q_size q;
  rg_cap : (q_size q <= q_cap q)%nat;
  rg_at : forall i x, a_items a !! i = Some x -> q_buf q !! ((q_pops q + i) mod q_cap q)%nat = Some (Some x);
  rg_closed : q_closed q = a_closed a;
  rg_last : q_last q = a_last a }.

Lemma ring_new cap : ring (q_new cap) (mkAQ [] false false).
Proof. split; cbn; try done; unfold q_size, q_cap; cbn; lia. Qed.

Lemma mod_inj (c p i j : nat) : (i < c)%nat -> (j < c)%nat -> ((p + i) mod c = (p + j) mod c)%nat -> i = j.
Proof.
  intros Hi Hj H. pose proof (Nat.div_mod (p + i) c ltac:(lia)). pose proof (Nat.div_mod (p + j) c ltac:(lia)).
  assert ((p + i) / c = (p + j) / c)%nat by nia. nia.
Qed.

Lemma ring_take q a x l : ring q a -> a_items a = x :: l ->
  exists q', q_take q = (Some x, q') /\ ring q' (mkAQ l (a_closed a) (a_last a)) /\ q_cap q' = q_cap q.
Proof.
  intros R E. pose proof (rg_len _ _ R) as Hl. rewrite E in Hl. cbn in Hl. pose proof (rg_cap _ _ R) as Hc.
  pose proof (rg_at _ _ R 0 x) as H0. rewrite E in H0. specialize (H0 eq_refl). rewrite Nat.add_0_r in H0.
  eexists. split; [unfold q_take; by rewrite H0|]. split; [|unfold q_cap; cbn; by rewrite insert_length].
  unfold q_size in *. split; cbn [q_pops q_pushes q_buf q_closed q_last a_items a_closed a_last]; unfold q_size, q_cap; cbn; rewrite ?insert_length.
  - lia.
  - lia.
  - unfold q_cap in *. lia.
  - intros i y Hy. rewrite list_lookup_insert_ne.
    + pose proof (rg_at _ _ R (S i) y) as Hi. rewrite E in Hi. specialize (Hi Hy).
      unfold q_cap in Hi. rewrite <- Hi. f_equal. f_equal. lia.
    + apply lookup_lt_Some in Hy. intros Heq. unfold q_cap in *.
      replace (S (q_pops q + i)) with (q_pops q + S i)%nat in Heq by lia.
      replace (q_pops q) with (q_pops q + 0)%nat in Heq at 1 by lia. apply mod_inj in Heq; lia.
  - apply R.
  - apply R.
Qed.

Lemma ring_take_n n : forall q a, ring q a -> (n <= length (a_items a))%nat ->
  exists q', q_take_n n q = (Some <$> take n (a_items a), q') /\
    ring q' (mkAQ (drop n (a_items a)) (a_closed a) (a_last a)) /\ q_cap q' = q_cap q.
Proof.
  induction n as [|n IH]; intros q a R Hn; cbn [q_take_n].
  - exists q. split; [by destruct a|]. split; [|done]. destruct a. done.
  - destruct (a_items a) as [|x l] eqn:E; cbn in Hn; [lia|].
    destruct (ring_take q a x l R E) as (q1 & E1 & R1 & C1). rewrite E1.
    destruct (IH q1 _ R1) as (q2 & E2 & R2 & C2); [cbn; lia|]. rewrite E2. cbn in *.
    exists q2. split; [done|]. split; [done|congruence].
Qed.

Lemma ring_drained q a : ring q a -> a_last a = true -> ring (q_close_if_drained q) (a_drained a).
Proof.
  intros R Hl. unfold q_close_if_drained, a_drained. rewrite (rg_last _ _ R), Hl, andb_true_r.
  pose proof (rg_len _ _ R) as Hn. pose proof (rg_le _ _ R) as Hle. unfold q_size in Hn.
  destruct (Nat.eqb_spec (q_pushes q) (q_pops q)) as [E|E], (a_items a) as [|x l] eqn:Ei; cbn in Hn; try lia.
  - destruct R as [R1 R2 R3 R4 R5 R6]. rewrite Ei in *.
    split; cbn; [done|done|done|done|by rewrite orb_true_r|congruence].
  - done.
Qed.
Lemma ring_not_drained q a : ring q a -> a_last a = false -> q_close_if_drained q = q.
Proof. intros R Hl. unfold q_close_if_drained. by rewrite (rg_last _ _ R), Hl, andb_false_r. Qed.

Lemma ring_step q a o : ring q a ->
  (q_step q o).1 = (a_step (q_cap q) a o).1 /\ ring (q_step q o).2 (a_step (q_cap q) a o).2 /\
  q_cap (q_step q o).2 = q_cap q.
Proof.
  intros R. pose proof (rg_closed _ _ R) as Hc. pose proof (rg_last _ _ R) as Hl. pose proof (rg_len _ _ R) as Hn.
  pose proof (rg_le _ _ R) as Hle. pose proof (rg_cap _ _ R) as Hcap.
  destruct o as [x| |b to| |]; cbn [q_step a_step].
  - unfold q_push. rewrite Hc, Hl. destruct (a_closed a) eqn:E1; [done|]. destruct (a_last a) eqn:E2; [done|]. cbn [orb].
    rewrite Hn. destruct (Nat.ltb_spec (q_size q) (q_cap q)) as [Hlt|Hge].
    + rewrite decide_True by lia. split; [done|]. cbn [snd]. split; [|unfold q_cap; cbn; by rewrite insert_length].
      split; cbn; unfold q_size, q_cap in *; cbn; rewrite ?insert_length, ?app_length; cbn; try lia.
      * intros i y Hy. apply lookup_app_Some in Hy as [Hy|[Hi Hy]].
        -- rewrite list_lookup_insert_ne; [by apply (rg_at _ _ R)|]. apply lookup_lt_Some in Hy. intros Heq.
           replace (q_pushes q) with (q_pops q + (q_pushes q - q_pops q))%nat in Heq by lia. apply mod_inj in Heq; lia.
        -- apply list_lookup_singleton_Some in Hy as [Hi0 <-].
           replace (q_pops q + i)%nat with (q_pushes q) by lia. apply list_lookup_insert. apply Nat.mod_upper_bound. lia.
    + rewrite decide_False by lia. done.
  - unfold q_pop. rewrite Hc. destruct (a_closed a) eqn:E1; [done|]. cbn [orb].
    destruct (a_items a) as [|x l] eqn:Ei; cbn in Hn; unfold q_size in Hn.
    + destruct (Nat.ltb_spec (q_pops q) (q_pushes q)); [lia|]. done.
    + destruct (Nat.ltb_spec (q_pops q) (q_pushes q)); [|lia].
      destruct (ring_take q a x l R Ei) as (q1 & Et & R1 & C1). rewrite Et. cbn [fst snd]. split; [done|]. rewrite E1 in R1.
      destruct (a_last a) eqn:E2.
      * split; [by apply ring_drained|]. unfold q_close_if_drained. by case_match.
      * rewrite (ring_not_drained _ _ R1) by done. split; [|done]. unfold a_drained. cbn. by destruct l.
  - unfold q_pop_batch. destruct (decide (0 <= b <= Z.of_nat (q_cap q))) as [Hb|Hb].
    + destruct (Z.ltb_spec b 0); [lia|]. destruct (Z.ltb_spec (Z.of_nat (q_cap q)) b); [lia|]. cbn [orb]. rewrite Hc, Hl.
      destruct (a_closed a) eqn:E1; [by cbn|]. destruct (a_last a) eqn:E2; [by rewrite orb_true_r|]. cbn [orb]. rewrite orb_false_r.
      rewrite Hn. destruct (Nat.leb_spec (Z.to_nat b) (q_size q)) as [Hs|Hs]; cbn [negb].
      * rewrite decide_True by done. destruct (ring_take_n (Z.to_nat b) q a R) as (q1 & Et & R1 & C1); [lia|].
        rewrite Et. cbn [fst snd]. split; [done|]. rewrite E1, E2 in R1. by rewrite (ring_not_drained _ _ R1).
      * rewrite decide_False by lia. by destruct to.
    + destruct (Z.ltb_spec b 0); [done|]. destruct (Z.ltb_spec (Z.of_nat (q_cap q)) b); [done|lia].
  - split; [done|]. cbn [snd]. unfold q_set_last.
    assert (R1 : ring (mkQueue (q_buf q) (q_pushes q) (q_pops q) (q_closed q) true) (mkAQ (a_items a) (a_closed a) true))
      by (destruct R; by split).
    pose proof (ring_drained _ _ R1 eq_refl) as R2. unfold q_close_if_drained in R2. cbn in R2. rewrite andb_true_r in R2.
    cbn. split; [done|]. by case_match.
  - split; [done|]. cbn. split; [|done]. destruct R. by split.
Qed.

Lemma ring_run os : forall q a, ring q a ->
  (q_run q os).1 = (a_run (q_cap q) a os).1 /\ ring (q_run q os).2 (a_run (q_cap q) a os).2 /\
  q_cap (q_run q os).2 = q_cap q.
Proof.
  induction os as [|o os IH]; intros q a R; [done|]. cbn. destruct (ring_step q a o R) as (E & R1 & C).
  destruct (q_step q o) as [r q1], (a_step (q_cap q) a o) as [r' a1]. cbn in E, R1, C. subst r'.
  destruct (IH q1 a1 R1) as (E2 & R2 & C2). rewrite C in *.
  destruct (q_run q1 os) as [rs q2], (a_run (q_cap q) a1 os) as [rs' a2]. cbn in *. subst rs'. split; [done|]. split; [done|congruence].
Qed.

(** ** C32 *)

(** Every sequence of calls gets the answers of the plain queue. *)
Theorem C32_refines cap os : (q_run (q_new (A := A) cap) os).1 = (a_run cap (mkAQ [] false false) os).1.
Proof. 
  destruct (ring_run os _ _ (ring_new cap)) as [H _]. rewrite H. unfold q_cap, q_new. cbn. by rewrite repeat_length.
Qed.

Lemma reach_ring cap os : exists a, a_run cap (mkAQ [] false false) os = ((q_run (q_new cap) os).1, a) /\
  ring (q_run (q_new cap) os).2 a /\ q_cap (q_run (q_new (A := A) cap) os).2 = cap.
Proof.
  destruct (ring_run os _ _ (ring_new cap)) as (H1 & H2 & H3).
  assert (Hc : q_cap (q_new (A := A) cap) = cap) by (unfold q_cap, q_new; cbn; by rewrite repeat_length). rewrite Hc in *.
  rewrite H1. destruct (a_run cap _ os) as [rs a]. exists a. done.
Qed.
Lemma a_run_app cap os1 os2 : forall a, a_run cap a (os1 ++ os2) =
  let '(rs1, a1) := a_run cap a os1 in let '(rs2, a2) := a_run cap a1 os2 in (rs1 ++ rs2, a2).
Proof.
  induction os1 as [|o os1 IH]; intros a; cbn.
  - by destruct (a_run cap a os2).
  - destruct (a_step cap a o) as [r a1]. rewrite IH. destruct (a_run cap a1 os1) as [rs1 a2].
    by destruct (a_run cap a2 os2).
Qed.

Lemma a_run_fifo cap os : forall a rs a', a_run cap a os = (rs, a') -> (length (a_items a) <= cap)%nat ->
  Some <$> (a_items a ++ pushed os rs) = popped rs ++ (Some <$> a_items a') /\ (length (a_items a') <= cap)%nat.
Proof.
  induction os as [|o os IH]; intros a rs a' H Hl; cbn in H.
  - injection H as <- <-. unfold pushed, popped. cbn. by rewrite app_nil_r.
  - destruct (a_step cap a o) as [r a1] eqn:E. destruct (a_run cap a1 os) as [rs1 a2] eqn:E1. injection H as <- <-.
    assert (S : Some <$> (a_items a ++ pushed [o] [r]) = popped [r] ++ (Some <$> a_items a1) /\ (length (a_items a1) <= cap)%nat).
    { clear IH E1. unfold pushed, popped. cbn.
      assert (Hd : forall l c la, a_items (a_drained (mkAQ l c la)) = l) by (intros [|]; done).
      destruct o as [x| |b to| |]; cbn [a_step] in E.
      - destruct (a_closed a || a_last a); [injection E as <- <-; cbn; by rewrite app_nil_r|]. case_decide; injection E as <- <-.
        + cbn. split; [done|]. rewrite app_length. cbn. lia.
        + cbn. by rewrite app_nil_r.
      - destruct (a_closed a); [injection E as <- <-; cbn; by rewrite app_nil_r|].
        destruct (a_items a) as [|x l] eqn:Ei; injection E as <- <-; cbn [a_items]; rewrite ?Hd; cbn in *; rewrite ?Ei, ?app_nil_r; cbn; [done|].
        split; [done|lia].
      - case_decide; [|injection E as <- <-; cbn; by rewrite app_nil_r].
        destruct (a_closed a); [injection E as <- <-; cbn; by rewrite app_nil_r|].
        destruct (a_last a); [injection E as <- <-; cbn; by rewrite app_nil_r|].
        case_decide; [|destruct to; injection E as <- <-; cbn; by rewrite app_nil_r].
        injection E as <- <-. cbn. rewrite !app_nil_r, <- fmap_app, take_drop, drop_length. split; [done|lia].
      - injection E as <- <-. rewrite Hd. cbn. by rewrite app_nil_r.
      - injection E as <- <-. cbn. by rewrite app_nil_r. }
    destruct S as [S1 S2]. destruct (IH a1 rs1 a2 E1 S2) as [I1 I2]. split; [|done].
    assert (P1 : pushed (o :: os) (r :: rs1) = pushed [o] [r] ++ pushed os rs1) by (unfold pushed; cbn; by rewrite app_nil_r).
    assert (P2 : popped (r :: rs1) = popped [r] ++ popped rs1) by (unfold popped; cbn; by rewrite app_nil_r).
    rewrite P1, P2, app_assoc, fmap_app, S1, <- !app_assoc, <- I1, fmap_app. done.
Qed.

(** What is popped is what was pushed, in the same order, each element once;
    what is missing is still in the queue, which has room for [cap] elements. *)
Theorem C32_fifo cap os : let '(rs, q) := q_run (q_new cap) os in
  exists rest, Some <$> pushed os rs = popped rs ++ (Some <$> rest) /\
    length rest = q_size q /\ (length rest <= cap)%nat.
Proof.
  destruct (reach_ring cap os) as (a & E & R & _). destruct (q_run (q_new cap) os) as [rs q]. cbn [fst snd] in *.
  destruct (a_run_fifo cap os _ rs a E) as [H1 H2]; [cbn; lia|]. exists (a_items a). split; [done|]. split; [apply R|done].
Qed.

Lemma not_closed_drained cap os : forall a rs a', a_run cap a os = (rs, a') -> QClose ∉ os ->
  (a_closed a = true -> a_items a = []) -> a_closed a' = true -> a_items a' = [].
Proof.
  induction os as [|o os IH]; intros a rs a' H Hq Ha; cbn in H; [by injection H as <- <-|].
  destruct (a_step cap a o) as [r a1] eqn:E. destruct (a_run cap a1 os) as [rs1 a2] eqn:E1. injection H as <- <-.
  apply not_elem_of_cons in Hq as [Hq Hqs]. apply (IH a1 rs1 a2 E1 Hqs). clear IH E1.
  assert (Hd : forall l c la, (c = true -> l = []) -> a_closed (a_drained (mkAQ l c la)) = true -> a_items (a_drained (mkAQ l c la)) = []).
  { intros [|x l] c la Hc; cbn; [done|]. auto. }
  destruct o as [x| |b to| |]; cbn [a_step] in E; try done.
  - destruct (a_closed a || a_last a); [by injection E as <- <-|]. case_decide; injection E as <- <-; auto; done.
  - destruct (a_closed a) eqn:Ec; [injection E as <- <-; auto|]. destruct (a_items a) as [|x l]; injection E as <- <-; [congruence|].
    by apply Hd.
  - case_decide; [|injection E as <- <-; auto]. destruct (a_closed a) eqn:Ec; [injection E as <- <-; auto|].
    destruct (a_last a); [injection E as <- <-; congruence|]. case_decide; [by injection E as <- <-|].
    destruct to; injection E as <- <-; congruence.
  - injection E as <- <-. by apply Hd.
Qed.


Lemma drain_run cap n l : forall c, (c = true <-> l = []) ->
  (a_run cap (mkAQ l c true) (repeat QPop (length l + n))).1 = ((fun x => QItem (Some x)) <$> l) ++ repeat QNone n.
Proof.
  induction l as [|x l IH]; intros c Hc; cbn [length Nat.add].
  - destruct Hc as [_ Hc]. rewrite Hc by done. clear Hc. cbn. induction n as [|n IHn]; [done|]. cbn.
    destruct (a_run cap _ (repeat QPop n)) as [rs a]. cbn in *. by rewrite IHn.
  - destruct c; [by destruct Hc as [Hc _]; specialize (Hc eq_refl)|]. cbn [repeat a_run a_step a_closed a_items].
    assert (E : a_drained (mkAQ l false (a_last (mkAQ (x :: l) false true))) = mkAQ l (bool_decide (l = [])) true).
    { unfold a_drained. cbn. destruct l; [done|]. by rewrite bool_decide_false. }
    rewrite E. specialize (IH (bool_decide (l = []))). rewrite bool_decide_eq_true in IH. specialize (IH (iff_refl _)).
    destruct (a_run cap _ (repeat QPop (length l + n))) as [rs a]. cbn in *. by rewrite IH.
Qed.

(** After SetLastItemPushed the remaining elements are still delivered, in
    order, and after that Pop returns false. *)
Theorem C32_drain cap os n : QClose ∉ os -> let '(rs, q) := q_run (q_new cap) os in
  exists rest, Some <$> pushed os rs = popped rs ++ (Some <$> rest) /\
    (q_run (q_new cap) (os ++ QSetLast :: repeat QPop (length rest + n))).1 =
      rs ++ QVoid :: ((fun x => QItem (Some x)) <$> rest) ++ repeat QNone n.
Proof.
  intros Hq. destruct (reach_ring cap os) as (a & E & R & _).
  rewrite (surjective_pairing (q_run (q_new cap) os)).
  destruct (a_run_fifo cap os _ _ a E) as [H1 H2]; [cbn; lia|]. exists (a_items a). split; [done|].
  rewrite C32_refines, a_run_app, E. cbn [a_run a_step].
  pose proof (not_closed_drained cap os _ _ a E Hq) as Hc. cbn in Hc. specialize (Hc ltac:(done)).
  assert (Ed : a_drained (mkAQ (a_items a) (a_closed a) true) = mkAQ (a_items a) (bool_decide (a_items a = [])) true).
  { unfold a_drained. cbn. destruct (a_items a) as [|x l] eqn:Ei; [by rewrite orb_true_r|].
    rewrite bool_decide_false by done. destruct (a_closed a); [|done]. by specialize (Hc eq_refl). }
  rewrite Ed. pose proof (drain_run cap n (a_items a) (bool_decide (a_items a = []))) as Hr.
  rewrite bool_decide_eq_true in Hr. specialize (Hr (iff_refl _)).
  destruct (a_run cap _ (repeat QPop _)) as [rs2 a2]. cbn in *. by rewrite Hr.
Qed.

(** After Close nothing is delivered or taken any more, and nobody waits. *)
Theorem C32_closed cap os os' : let q := (q_run (q_new cap) (os ++ [QClose])).2 in
  let rs := (q_run q os').1 in
  pushed os' rs = [] /\ popped rs = [] /\ QWait ∉ rs.
Proof.
  intros q rs. destruct (reach_ring cap (os ++ [QClose])) as (a & E & R & C). fold q in R, C.
  destruct (ring_run os' q a R) as [Er _]. rewrite C in Er. unfold rs. rewrite Er.
  assert (Hc : a_closed a = true).
  { rewrite a_run_app in E. destruct (a_run cap _ os) as [rs1 a1]. cbn in E. by injection E as _ <-. }
  clear -Hc. revert a Hc. induction os' as [|o os' IH]; intros a Hc; cbn [a_run]; [split; [done|split; [done|apply not_elem_of_nil]]|].
  assert (S : let '(r, a1) := a_step cap a o in a_closed a1 = true /\ pushed [o] [r] = [] /\ popped [r] = [] /\ r <> QWait).
  { destruct o as [x| |b to| |]; cbn [a_step]; rewrite ?Hc; cbn [orb]; try done.
    - case_decide; done.
    - split; [|done]. unfold a_drained. cbn. by case_match. }
  destruct (a_step cap a o) as [r a1]. destruct S as (S1 & S2 & S3 & S4). destruct (IH a1 S1) as (I1 & I2 & I3).
  destruct (a_run cap a1 os') as [rs1 a2]. cbn [fst snd] in *.
  assert (P1 : pushed (o :: os') (r :: rs1) = pushed [o] [r] ++ pushed os' rs1) by (unfold pushed; cbn; by rewrite app_nil_r).
  assert (P2 : popped (r :: rs1) = popped [r] ++ popped rs1) by (unfold popped; cbn; by rewrite app_nil_r).
  rewrite P1, P2, S2, S3, I1, I2. split; [done|]. split; [done|]. apply not_elem_of_cons. split; congruence.
Qed.

(** A waiting call waits for a reason: the queue is full, or empty. *)
Theorem C32_wait cap os x : let q := (q_run (q_new cap) os).2 in
  ((q_step q (QPush x)).1 = QWait <-> q_closed q = false /\ q_last q = false /\ q_size q = cap) /\
  ((q_step q QPop).1 = QWait <-> q_closed q = false /\ q_size q = 0%nat).
Proof.
  intros q. destruct (reach_ring cap os) as (a & _ & R & C). fold q in R, C.
  pose proof (rg_le _ _ R) as Hle. pose proof (rg_cap _ _ R) as Hcap. split.
  - cbn [q_step]. unfold q_push. destruct (q_closed q), (q_last q); cbn [orb]; try (split; [done|by intros (? & ? & ?)]).
    destruct (Nat.ltb_spec (q_size q) (q_cap q)) as [H|H]; cbn.
    + split; [done|]. intros (_ & _ & ?). lia.
    + split; [|done]. intros _. split; [done|]. split; [done|]. lia.
  - cbn [q_step]. unfold q_pop. unfold q_size in *. destruct (q_closed q); cbn [orb]; [split; [done|by intros [? _]]|].
    destruct (Nat.ltb_spec (q_pops q) (q_pushes q)) as [H|H]; cbn.
    + destruct (q_take q). cbn. split; [done|]. intros [_ ?]. lia.
    + split; [|done]. intros _. split; [done|lia].
Qed.

(** ** C33 *)

(** PopBatch before SetLastItemPushed.  Missing from the full statement: the
    calls after SetLastItemPushed, for which it is false (below). *)
Theorem C33_pop_batch_partial cap os b timeout : let '(rs, q) := q_run (q_new cap) os in
  q_closed q = false -> q_last q = false -> 0 <= b <= Z.of_nat cap -> b <= Z.of_nat (q_size q) ->
  exists l rest, (q_step q (QPopBatch b timeout)).1 = QBatch PopOk (Some <$> l) /\ Z.of_nat (length l) = b /\
    Some <$> pushed os rs = popped rs ++ (Some <$> l ++ rest).
Proof.
  destruct (reach_ring cap os) as (a & E & R & C). destruct (q_run (q_new cap) os) as [rs q]. cbn [fst snd] in *.
  intros Hc Hl Hb Hs. destruct (a_run_fifo cap os _ rs a E) as [H1 H2]; [cbn; lia|].
  destruct (ring_step q a (QPopBatch b timeout) R) as (Er & _ & _). rewrite Er. cbn [a_step].
  rewrite <- (rg_closed _ _ R), <- (rg_last _ _ R), Hc, Hl, C. pose proof (rg_len _ _ R) as Hn.
  rewrite decide_True by done. rewrite decide_True by lia. exists (take (Z.to_nat b) (a_items a)), (drop (Z.to_nat b) (a_items a)).
  split; [done|]. split; [rewrite take_length; lia|]. rewrite take_drop. cbn in H1. done.
Qed.

(** After SetLastItemPushed PopBatch never returns anything, however many
    elements there are. *)
Theorem C33_after_last cap os b timeout : let q := (q_run (q_new (A := A) cap) os).2 in
  q_closed q = false -> q_last q = true -> 0 <= b <= Z.of_nat cap ->
  q_step q (QPopBatch b timeout) = (QBatch PopExhausted [], q).
Proof.
  intros q Hc Hl Hb. destruct (reach_ring cap os) as (a & _ & R & C). fold q in R, C.
  cbn. unfold q_pop_batch. rewrite C. destruct (Z.ltb_spec b 0); [lia|]. destruct (Z.ltb_spec (Z.of_nat cap) b); [lia|].
  cbn. rewrite Hc, Hl, orb_true_r. done.
Qed.

End Queue.

(** ** Concrete cases *)

Definition ex_q : list (qop Z) :=
  [QPush 1; QPop; QPush 2; QPush 3; QPush 4; QPop; QPush 4; QPopBatch 3 true; QPopBatch 1 false; QPush 5].
Example C32_example : q_run (q_new 2) ex_q =
  ([QBool true; QItem (Some 1); QBool true; QBool true; QWait; QItem (Some 2); QBool true; QBatch PopInvalid [];
    QBatch PopOk [Some 3]; QBool true], mkQueue [Some 5; Some 4] 5 3 false false).
Proof. by vm_compute. Qed.
Example C32_drain_example : (q_run (q_new 2) (ex_q ++ QSetLast :: repeat QPop (2 + 1))).1 =
  (q_run (q_new 2) ex_q).1 ++ QVoid :: [QItem (Some 4); QItem (Some 5); QNone].
Proof. by vm_compute. Qed.
Example C33_example : (q_run (q_new 2) (ex_q ++ [QPopBatch 2 false])).1 !! 10%nat = Some (QBatch PopOk [Some 4; Some 5]).
Proof. by vm_compute. Qed.

(** Two elements in the queue, two are asked for, none is returned. *)
Theorem C33_pop_batch_refuted : exists os,
  let '(rs, q) := q_run (q_new 2) os in
  q_closed q = false /\ q_size q = 2%nat /\ pushed os rs = [7; 8] /\ popped rs = [] /\
  (q_step q (QPopBatch 2 false)).1 = QBatch PopExhausted [].
Proof. exists [QPush 7; QPush 8; QSetLast]. by vm_compute. Qed.

Print Assumptions C32_refines.
Print Assumptions C32_fifo.
Print Assumptions C32_drain.
Print Assumptions C32_closed.
Print Assumptions C32_wait.
Print Assumptions C33_pop_batch_partial.
Print Assumptions C33_after_last.
Print Assumptions C33_pop_batch_refuted.
